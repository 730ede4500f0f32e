(** Model of RecordWriterBase with a ParallelWorker (parallelism > 0): riegeli/records/record_writer.cc:502-1095,
    and of FutureChunkBegin: riegeli/records/record_position.{h,cc}.

    Threads: the thread of the user, the chunk writer thread, and one task per chunk to encode.  What the user thread
    does is a program over the operations which touch the state shared with other threads, each of them done while
    holding the mutex or waiting for a promise; one step of the model is one such operation.  A schedule is the list of
    threads which make the next steps.  The thread pool is assumed to run every task.
    Statuses are reduced to whether they are OK. *)
From Verif Require Import Base.Bytes Model.Endian Model.Block Model.Chunk Model.ChunkWriter Model.SimpleChunk Model.RecordWriter.

(** What a task encodes: EncodeMetadata or EncodeChunk.  The encoder of a chunk is a DeferredEncoder (record_writer.cc:307-311). *)
Inductive job := JobMetadata (metadata : list Z) | JobChunk (d : deferred).

(** record_writer.cc:542-562 [ChunkWriterRequest].  Promises are numbered. *)
Inductive request :=
| RDone
| RAnnotate (n : nat)
| RChunk (id : nat)
| RPadding (padding : Z)
| RFlush (n : nat).

(** record_position.h:190-220 [FutureChunkBegin]: [pos_before_chunks_] and the actions after it. *)
Inductive action := AHeader (id : nat) | APadding (padding : Z).
Definition future_begin : Type := Z * list action.

(** The operations of the user thread. *)
Inductive prog (A : Type) : Type :=
| Ret (a : A)
| Crash                                       (* dereferencing a null pointer *)
| AskOk (k : bool -> prog A)                  (* ok() *)
| FailNow (k : prog A)                        (* FailWithoutAnnotation() *)
| SendChunk (c : chunk) (k : prog A)          (* a chunk already encoded *)
| SendJob (j : job) (k : prog A)
| SendPadding (padding : Z) (k : prog A)
| SendFlush (k : nat -> prog A)
| AwaitFlush (n : nat) (k : bool -> prog A)
| SendAnnotate (k : nat -> prog A)
| AwaitAnnotate (n : nat) (k : prog A)
| SendDone (k : prog A)
| AwaitDone (k : prog A)
| TakeBegin (k : nat -> prog A)               (* ChunkBegin() *)
| GetBegin (n : nat) (k : Z -> prog A).       (* FutureChunkBegin::get() *)
Arguments Ret {A}. Arguments Crash {A}. Arguments AskOk {A}. Arguments FailNow {A}. Arguments SendChunk {A}.
Arguments SendJob {A}. Arguments SendPadding {A}. Arguments SendFlush {A}. Arguments AwaitFlush {A}. Arguments SendAnnotate {A}.
Arguments AwaitAnnotate {A}. Arguments SendDone {A}. Arguments AwaitDone {A}. Arguments TakeBegin {A}. Arguments GetBegin {A}.
Fixpoint bind {A B} (p : prog A) (f : A -> prog B) : prog B :=
  match p with
  | Ret a => f a
  | Crash => Crash
  | AskOk k => AskOk (fun b => bind (k b) f)
  | FailNow k => FailNow (bind k f)
  | SendChunk c k => SendChunk c (bind k f)
  | SendJob j k => SendJob j (bind k f)
  | SendPadding p k => SendPadding p (bind k f)
  | SendFlush k => SendFlush (fun n => bind (k n) f)
  | AwaitFlush n k => AwaitFlush n (fun b => bind (k b) f)
  | SendAnnotate k => SendAnnotate (fun n => bind (k n) f)
  | AwaitAnnotate n k => AwaitAnnotate n (bind k f)
  | SendDone k => SendDone (bind k f)
  | AwaitDone k => AwaitDone (bind k f)
  | TakeBegin k => TakeBegin (fun n => bind (k n) f)
  | GetBegin n k => GetBegin n (fun z => bind (k z) f)
  end.
Notation "x <- p ;; q" := (bind p (fun x => q)) (at level 61, p at next level, right associativity).

(** ** The threads *)
Section Threads.
  Variable hash : list Z -> Z.
  (** EncodeMetadata and EncodeChunk (record_writer.cc:318-341, 363-380); [None] is a failure. *)
  Variable encode : job -> option chunk.
  (** Options::parallelism() *)
  Variable parallelism : Z.

  (** [std::promise<ChunkHeader>] and [std::promise<Chunk>] *)
  Record promise := MkPromise { p_header : option (list Z); p_chunk : option chunk }.
  (** record_writer.cc:706-712, 723-731: a task.  When encoding fails, [Fail] calls [AnnotateStatus] (record_writer.cc:660-671)
      which sends a request and waits for the answer; the chunk is then an empty one. *)
  Inductive task := Encode (j : job) | WantAnnotate | WaitAnnotate (n : nat) | SetHeader (c : chunk) | SetChunk (c : chunk).
  (** The chunk of a failed encoding: the default header is all zeros (chunk.h:43). *)
  Definition no_chunk : chunk := MkChunk (zeros ChunkHeaderSize) [].
  (** record_writer.cc:619-634: waiting for a request; the front one is being handled; it was handled; after DoneRequest. *)
  Inductive writer_thread := WWait | WHandle | WHandled | WExited.
  (** The user runs a program, or has just sent the request for a chunk and is going to schedule its task (record_writer.cc:706, 723). *)
  Inductive user (A : Type) := Running (p : prog A) | Scheduling (id : nat) (j : job) (p : prog A).

  Record state (A : Type) := MkState {
    s_user : user A;
    s_thread : writer_thread;
    s_tasks : list (nat * task);
    s_queue : list request;           (* chunk_writer_requests_ *)
    s_before : Z;                     (* pos_before_chunks_ *)
    s_ok : bool;                      (* state_.ok() *)
    s_dest : list Z;                  (* everything written *)
    s_pos : Z;                        (* chunk_writer_->pos() *)
    s_images : list (list Z);         (* what the destination held, at each successful flush of it *)
    s_promises : list promise;
    s_flushes : list (option bool);
    s_annotations : list bool;
    s_done : bool;
    s_futures : list future_begin
  }.
End Threads.
Arguments Running {A}. Arguments Scheduling {A}. Arguments MkState {A}.
Arguments s_user {A}. Arguments s_thread {A}. Arguments s_tasks {A}. Arguments s_queue {A}. Arguments s_before {A}. Arguments s_ok {A}. Arguments s_dest {A}.
Arguments s_pos {A}. Arguments s_images {A}. Arguments s_promises {A}. Arguments s_flushes {A}. Arguments s_annotations {A}. Arguments s_done {A}. Arguments s_futures {A}.

Section Setters.
  Context {A : Type}.
  Definition set_user (u : user A) (s : state A) := MkState u (s_thread s) (s_tasks s) (s_queue s) (s_before s) (s_ok s) (s_dest s) (s_pos s) (s_images s) (s_promises s) (s_flushes s) (s_annotations s) (s_done s) (s_futures s).
  Definition set_thread t (s : state A) := MkState (s_user s) t (s_tasks s) (s_queue s) (s_before s) (s_ok s) (s_dest s) (s_pos s) (s_images s) (s_promises s) (s_flushes s) (s_annotations s) (s_done s) (s_futures s).
  Definition set_tasks t (s : state A) := MkState (s_user s) (s_thread s) t (s_queue s) (s_before s) (s_ok s) (s_dest s) (s_pos s) (s_images s) (s_promises s) (s_flushes s) (s_annotations s) (s_done s) (s_futures s).
  Definition set_queue q (s : state A) := MkState (s_user s) (s_thread s) (s_tasks s) q (s_before s) (s_ok s) (s_dest s) (s_pos s) (s_images s) (s_promises s) (s_flushes s) (s_annotations s) (s_done s) (s_futures s).
  Definition set_before b (s : state A) := MkState (s_user s) (s_thread s) (s_tasks s) (s_queue s) b (s_ok s) (s_dest s) (s_pos s) (s_images s) (s_promises s) (s_flushes s) (s_annotations s) (s_done s) (s_futures s).
  Definition set_failed (s : state A) := MkState (s_user s) (s_thread s) (s_tasks s) (s_queue s) (s_before s) false (s_dest s) (s_pos s) (s_images s) (s_promises s) (s_flushes s) (s_annotations s) (s_done s) (s_futures s).
  Definition put_dest d p (s : state A) := MkState (s_user s) (s_thread s) (s_tasks s) (s_queue s) (s_before s) (s_ok s) d p (s_images s) (s_promises s) (s_flushes s) (s_annotations s) (s_done s) (s_futures s).
  Definition add_image (s : state A) := MkState (s_user s) (s_thread s) (s_tasks s) (s_queue s) (s_before s) (s_ok s) (s_dest s) (s_pos s) (s_images s ++ [s_dest s]) (s_promises s) (s_flushes s) (s_annotations s) (s_done s) (s_futures s).
  Definition set_promises p (s : state A) := MkState (s_user s) (s_thread s) (s_tasks s) (s_queue s) (s_before s) (s_ok s) (s_dest s) (s_pos s) (s_images s) p (s_flushes s) (s_annotations s) (s_done s) (s_futures s).
  Definition set_flushes f (s : state A) := MkState (s_user s) (s_thread s) (s_tasks s) (s_queue s) (s_before s) (s_ok s) (s_dest s) (s_pos s) (s_images s) (s_promises s) f (s_annotations s) (s_done s) (s_futures s).
  Definition set_annotations a (s : state A) := MkState (s_user s) (s_thread s) (s_tasks s) (s_queue s) (s_before s) (s_ok s) (s_dest s) (s_pos s) (s_images s) (s_promises s) (s_flushes s) a (s_done s) (s_futures s).
  Definition set_done (s : state A) := MkState (s_user s) (s_thread s) (s_tasks s) (s_queue s) (s_before s) (s_ok s) (s_dest s) (s_pos s) (s_images s) (s_promises s) (s_flushes s) (s_annotations s) true (s_futures s).
  Definition add_future f (s : state A) := MkState (s_user s) (s_thread s) (s_tasks s) (s_queue s) (s_before s) (s_ok s) (s_dest s) (s_pos s) (s_images s) (s_promises s) (s_flushes s) (s_annotations s) (s_done s) (s_futures s ++ [f]).
End Setters.

Fixpoint set_nth {X} (n : nat) (x : X) (l : list X) : list X :=
  match l, n with
  | [], _ => []
  | _ :: l, O => x :: l
  | y :: l, S n => y :: set_nth n x l
  end.
Fixpoint remove_nth {X} (n : nat) (l : list X) : list X :=
  match l, n with
  | [], _ => []
  | _ :: l, O => l
  | y :: l, S n => y :: remove_nth n l
  end.

Section Steps.
  Variable hash : list Z -> Z.
  Variable encode : job -> option chunk.
  Variable parallelism : Z.
  Context {A : Type}.

  (** record_writer.cc:673-676 [HasCapacityForRequest] *)
  Definition HasCapacity (s : state A) : bool := zlen (s_queue s) <? parallelism.
  (** [MutexLock lock(mutex_, Condition(HasCapacityForRequest)); chunk_writer_requests_.emplace_back(r);] *)
  Definition enqueue (r : request) s : state A := set_queue (s_queue s ++ [r]) s.
  Definition send (r : request) s : option (state A) := if HasCapacity s then Some (enqueue r s) else None.

  (** record_writer.cc:778-801 [ChunkBegin] *)
  Definition actions (q : list request) : list action :=
    flat_map (fun r => match r with RChunk id => [AHeader id] | RPadding p => [APadding p] | _ => [] end) q.
  Definition ChunkBegin (s : state A) : future_begin := (s_before s, actions (s_queue s)).
  (** record_position.cc:121-137 [FutureChunkBegin::Unresolved::Resolve]; [None] while a header is not known
      ([chunk_header.get()] blocks). *)
  Fixpoint resolve (ps : list promise) (pos : Z) (l : list action) : option Z :=
    match l with
    | [] => Some pos
    | AHeader id :: l =>
        match nth_error ps id with
        | Some (MkPromise (Some h) _) => resolve ps (ChunkEnd (ch_data_size h) (ch_num_records h) pos) l
        | _ => None
        end
    | APadding p :: l =>
        match PosAfterPadding pos p with Some pos => resolve ps pos l | None => None end
    end.

  (** A step of the user thread; [None] if it is blocked or finished. *)
  Definition user_step (s : state A) : option (state A) :=
    match s_user s with
    | Scheduling id j k => Some (set_user (Running k) (set_tasks (s_tasks s ++ [(id, Encode j)]) s))
    | Running p =>
        match p with
        | Ret _ => None
        | Crash => None
        | AskOk k => Some (set_user (Running (k (s_ok s))) s)
        | FailNow k => Some (set_user (Running k) (set_failed s))
        | SendChunk c k =>
            send (RChunk (length (s_promises s)))
              (set_user (Running k) (set_promises (s_promises s ++ [MkPromise (Some (c_header c)) (Some c)]) s))
        | SendJob j k =>
            send (RChunk (length (s_promises s)))
              (set_user (Scheduling (length (s_promises s)) j k) (set_promises (s_promises s ++ [MkPromise None None]) s))
        | SendPadding padding k => send (RPadding padding) (set_user (Running k) s)
        | SendFlush k =>
            send (RFlush (length (s_flushes s)))
              (set_user (Running (k (length (s_flushes s)))) (set_flushes (s_flushes s ++ [None]) s))
        | AwaitFlush n k =>
            match nth_error (s_flushes s) n with
            | Some (Some b) => Some (set_user (Running (k b)) s)
            | _ => None
            end
        | SendAnnotate k =>
            send (RAnnotate (length (s_annotations s)))
              (set_user (Running (k (length (s_annotations s)))) (set_annotations (s_annotations s ++ [false]) s))
        | AwaitAnnotate n k => if nth n (s_annotations s) false then Some (set_user (Running k) s) else None
        | SendDone k => Some (enqueue RDone (set_user (Running k) s))
        | AwaitDone k => if s_done s then Some (set_user (Running k) s) else None
        | TakeBegin k => Some (set_user (Running (k (length (s_futures s)))) (add_future (ChunkBegin s) s))
        | GetBegin n k =>
            match nth_error (s_futures s) n with
            | Some (pos, l) =>
                match resolve (s_promises s) pos l with Some z => Some (set_user (Running (k z)) s) | None => None end
            | None => None
            end
        end
    end.

  (** A step of task number [n]. *)
  Definition task_step (n : nat) s : option (state A) :=
    match nth_error (s_tasks s) n with
    | None => None
    | Some (id, t) =>
        match t with
        | Encode j =>
            (* EncodeMetadata does not begin with checking ok(), EncodeChunk does. *)
            let skip := match j with JobChunk _ => negb (s_ok s) | JobMetadata _ => false end in
            if skip then Some (set_tasks (set_nth n (id, SetHeader no_chunk) (s_tasks s)) s)
            else
              match encode j with
              | Some c => Some (set_tasks (set_nth n (id, SetHeader c) (s_tasks s)) s)
              | None => Some (set_tasks (set_nth n (id, WantAnnotate) (s_tasks s)) s)
              end
        | WantAnnotate =>
            send (RAnnotate (length (s_annotations s)))
              (set_tasks (set_nth n (id, WaitAnnotate (length (s_annotations s))) (s_tasks s))
                 (set_annotations (s_annotations s ++ [false]) s))
        | WaitAnnotate m =>
            if nth m (s_annotations s) false
            then Some (set_failed (set_tasks (set_nth n (id, SetHeader no_chunk) (s_tasks s)) s)) else None
        | SetHeader c =>
            Some (set_promises (set_nth id (MkPromise (Some (c_header c)) None) (s_promises s))
                    (set_tasks (set_nth n (id, SetChunk c) (s_tasks s)) s))
        | SetChunk c =>
            Some (set_promises (set_nth id (MkPromise (Some (c_header c)) (Some c)) (s_promises s))
                    (set_tasks (remove_nth n (s_tasks s)) s))
        end
    end.

  (** A failure of the destination: how much of the chunk was written, and what [chunk_writer_->pos()] is then. *)
  Record fault := MkFault { written_size : Z; pos_after : Z }.
  (** chunk_writer_->WriteChunk(chunk) or WritePadding(padding), which would write [r]; [FailWithoutAnnotation] if it fails. *)
  Definition write_dest (f : option fault) (r : option (list Z * Z)) s : option (state A) :=
    match r with
    | None => None
    | Some (out, pos) =>
        match f with
        | None => Some (put_dest (s_dest s ++ out) pos s)
        | Some f => Some (set_failed (put_dest (s_dest s ++ ztake (written_size f) out) (u64 (pos_after f)) s))
        end
    end.
  (** record_writer.cc:567-614 [Visitor]; [None] while the chunk is not known ([request.chunk.get()] blocks). *)
  Definition handle (f : option fault) (r : request) s : option (state A) :=
    match r with
    | RDone => Some (set_done s)
    | RAnnotate n => Some (set_annotations (set_nth n true (s_annotations s)) s)
    | RChunk id =>
        match nth_error (s_promises s) id with
        | Some (MkPromise _ (Some c)) => if s_ok s then write_dest f (WriteChunk hash c (s_pos s)) s else Some s
        | _ => None
        end
    | RPadding padding => if s_ok s then write_dest f (WritePadding hash padding (s_pos s)) s else Some s
    | RFlush n =>
        if s_ok s then
          match f with
          | None => Some (add_image (set_flushes (set_nth n (Some true) (s_flushes s)) s))
          | Some _ => Some (set_failed (set_flushes (set_nth n (Some false) (s_flushes s)) s))
          end
        else Some (set_flushes (set_nth n (Some false) (s_flushes s)) s)
    end.
  (** record_writer.cc:617-636: a step of the chunk writer thread. *)
  Definition writer_step (f : option fault) s : option (state A) :=
    match s_thread s with
    | WWait => match s_queue s with [] => None | _ => Some (set_thread WHandle s) end
    | WHandle =>
        match s_queue s with
        | [] => None
        | r :: _ =>
            match handle f r s with
            | None => None
            | Some s => Some (set_thread (match r with RDone => WExited | _ => WHandled end) s)
            end
        end
    | WHandled => Some (set_before (s_pos s) (set_queue (tl (s_queue s)) (set_thread WWait s)))
    | WExited => None
    end.

  (** Who makes the next step. *)
  Inductive turn := TurnUser | TurnTask (n : nat) | TurnWriter (f : option fault).
  Definition step (t : turn) s : option (state A) :=
    match t with TurnUser => user_step s | TurnTask n => task_step n s | TurnWriter f => writer_step f s end.
  Fixpoint run (ts : list turn) (s : state A) : option (state A) :=
    match ts with
    | [] => Some s
    | t :: ts => match step t s with Some s => run ts s | None => None end
    end.
  (** record_writer.cc:559-562, chunk_writer.cc:65-75: the worker just created, for a file which holds [dest]. *)
  Definition initial (dest : list Z) (p : prog A) : state A :=
    let '(out, pos) := InitializeWriter (zlen dest) in
    MkState (Running p) WWait [] [] pos true (dest ++ out) pos [] [] [] [] false [].
End Steps.

(** ** The user thread *)
(** record_writer.h:646-660; a FutureRecordPosition is a future chunk begin and an index (record_position.h:225-273). *)
Inductive plast := PInvalid | PValid | PValidAt (pos : nat * Z).
(** RecordWriterBase: ok(), desired_chunk_size_, chunk_size_so_far_, last_record_; chunk_encoder_ of the worker ([None]: nullptr). *)
Record local := MkLocal { l_ok : bool; l_encoder : option deferred; l_desired : Z; l_so_far : Z; l_last : plast }.
Definition l_set_ok b l := MkLocal b (l_encoder l) (l_desired l) (l_so_far l) (l_last l).
Definition l_set_encoder e l := MkLocal (l_ok l) e (l_desired l) (l_so_far l) (l_last l).
Definition l_set_so_far n l := MkLocal (l_ok l) (l_encoder l) (l_desired l) n (l_last l).
Definition l_set_last p l := MkLocal (l_ok l) (l_encoder l) (l_desired l) (l_so_far l) p.
(** [if (!m) return FailWithoutAnnotation(...);] and go on with [f]. *)
Definition pthen (m : prog (bool * local)) (f : local -> prog (bool * local)) : prog (bool * local) :=
  r <- m ;; let '(b, l) := r in if b then f l else Ret (false, l_set_ok false l).

Section User.
  Variable hash : list Z -> Z.
  Variable o : options.

  (** record_writer.cc:678-694 [WriteSignature] *)
  Definition P_WriteSignature : prog bool :=
    AskOk (fun ok => if negb ok then Ret false
      else SendChunk (MkChunk (ChunkHeader hash [] kFileSignature 0 0) []) (Ret true)).
  (** record_writer.cc:696-718 [WriteMetadata] *)
  Definition P_WriteMetadata : prog bool :=
    AskOk (fun ok => if negb ok then Ret false
      else match o_metadata o with
           | None => Ret true
           | Some m => SendJob (JobMetadata m) (Ret true)
           end).
  (** record_writer.cc:745-754 [WritePadding] *)
  Definition P_WritePadding (padding : Z) : prog bool :=
    AskOk (fun ok => if negb ok then Ret false else SendPadding padding (Ret true)).
  (** record_writer.cc:720-743 [CloseChunk]; [chunk_encoder_.release()] *)
  Definition P_CloseChunk (l : local) : prog (bool * local) :=
    AskOk (fun ok => if negb ok then Ret (false, l)
      else match l_encoder l with
           | None => Crash
           | Some d => SendJob (JobChunk d) (Ret (true, l_set_encoder None l))
           end).
  (** record_writer.cc:515 [OpenChunk] *)
  Definition P_OpenChunk (l : local) : local := l_set_encoder (Some NewDeferred) l.
  (** record_writer.cc:803-813 [ParallelWorker::LastPos] *)
  Definition P_WorkerLastPos (l : local) : prog (nat * Z) :=
    match l_encoder l with
    | None => Crash
    | Some d => TakeBegin (fun n => Ret (n, d_num d - 1))
    end.
  (** record_writer.cc:815-822 [ParallelWorker::Pos] *)
  Definition P_Pos (l : local) : prog (nat * Z) :=
    TakeBegin (fun n => Ret (n, match l_encoder l with None => 0 | Some d => d_num d end)).
  (** record_writer.cc:1068-1082 [LastPos]; [None] if there is no last record. *)
  Definition P_LastPos (l : local) : prog (option (nat * Z)) :=
    match l_last l with
    | PInvalid => Ret None
    | PValid => p <- P_WorkerLastPos l ;; Ret (Some p)
    | PValidAt p => Ret (Some p)
    end.
  (** record_writer.cc:342-350 [Worker::AddRecord], 253-255 [Worker::Fail], 660-671 [AnnotateStatus] *)
  Definition P_AddRecord (record : list Z) (l : local) : prog (bool * local) :=
    AskOk (fun ok => if negb ok then Ret (false, l)
      else match l_encoder l with
           | None => Crash
           | Some d =>
               let '(b, d) := Deferred_AddRecord record d in
               let l := l_set_encoder (Some d) l in
               if b then Ret (true, l)
               else SendAnnotate (fun n => AwaitAnnotate n (FailNow (Ret (false, l))))
           end).

  (** record_writer.cc:637, 264-271, 873-889 *)
  Definition P_New (pos : Z) : prog local :=
    let l := MkLocal true (Some NewDeferred) (Z.min (effective_chunk_size o) (kMaxNumRecords * 8)) 0 PInvalid in
    _ <- (if pos =? 0 then b <- P_WriteSignature ;; if b then P_WriteMetadata else Ret false
          else P_WritePadding (o_initial_padding o)) ;;
    AskOk (fun ok => Ret (l_set_ok ok l)).

  (** record_writer.cc:930-1005 [WriteRecord], [WriteRecordImpl] *)
  Definition P_WriteRecord (record : list Z) (l : local) : prog (bool * local) :=
    if negb (l_ok l) then Ret (false, l)
    else
      let l := l_set_last PInvalid l in
      let added_size := u64 (zlen record + 8) in
      pthen
        (if (l_desired l <? u64 (l_so_far l + added_size)) && (0 <? l_so_far l) then
           pthen (P_CloseChunk l) (fun l => Ret (true, l_set_so_far 0 (P_OpenChunk l)))
         else Ret (true, l))
        (fun l =>
           let l := l_set_so_far (u64 (l_so_far l + added_size)) l in
           pthen (P_AddRecord record l)
             (fun l =>
                if l_desired l <? u64 (l_so_far l + 8) then
                  p <- P_WorkerLastPos l ;;
                  let l := l_set_last (PValidAt p) l in
                  pthen (P_CloseChunk l) (fun l => Ret (true, l_set_so_far 0 (P_OpenChunk l)))
                else Ret (true, l_set_last PValid l))).

  (** record_writer.cc:899-904, 1009-1017, 1041-1049 *)
  Definition P_close_open_chunk (l : local) : prog (bool * local) :=
    if 0 <? l_so_far l then
      l <- (match l_last l with
            | PValid => p <- P_WorkerLastPos l ;; Ret (l_set_last (PValidAt p) l)
            | _ => Ret l
            end) ;;
      P_CloseChunk l
    else Ret (true, l).
  Definition P_pad (l : local) : prog (bool * local) := b <- P_WritePadding (o_final_padding o) ;; Ret (b, l).
  Definition P_reopen (l : local) : local := if 0 <? l_so_far l then l_set_so_far 0 (P_OpenChunk l) else l.
  (** record_writer.cc:1007-1030 [Flush] (with a FlushType other than kFromObject, or owning the destination), 756-758. *)
  Definition P_Flush (l : local) : prog (bool * local) :=
    if negb (l_ok l) then Ret (false, l)
    else
      pthen (P_close_open_chunk l)
        (fun l => pthen (P_pad l)
           (fun l => pthen (SendFlush (fun n => AwaitFlush n (fun b => Ret (b, l))))
              (fun l => Ret (true, P_reopen l)))).
  (** record_writer.cc:1032-1066 [FutureFlush], 760-771.  The future status returned is known, or to be awaited. *)
  Definition P_FutureFlush (l : local) : prog ((bool + nat) * local) :=
    if negb (l_ok l) then Ret (inl false, l)
    else
      r <- P_close_open_chunk l ;;
      let '(b, l) := r in
      if negb b then Ret (inl false, l_set_ok false l)
      else
        r <- P_pad l ;;
        let '(b, l) := r in
        if negb b then Ret (inl false, l_set_ok false l)
        else SendFlush (fun n => Ret (inr n, P_reopen l)).
  (** record_writer.cc:247-251 [Worker::Close], 638-648 [Done] *)
  Definition P_CloseWorker : prog bool := SendDone (AwaitDone (AskOk (fun ok => Ret ok))).
  (** record_writer.cc:891-912 [Done]; object.cc [Close]: the result. *)
  Definition P_Close (l : local) : prog bool :=
    r <- P_close_open_chunk l ;;
    let '(b1, l) := r in
    b2 <- P_WritePadding (o_final_padding o) ;;
    b3 <- P_CloseWorker ;;
    Ret (l_ok l && b1 && b2 && b3).

  (** ** Calls made by a user.
      [AskPos] and [AskLastPos] keep the future returned by Pos() or LastPos(), and [GetPos i] calls get() on the [i]-th future kept;
      [StartFlush] keeps the future returned by FutureFlush(), and [GetFlush i] waits for the [i]-th one. *)
  Inductive ucall := Write (record : list Z) | FlushNow | StartFlush | AskPos | AskLastPos | GetPos (i : nat) | GetFlush (i : nat).
  (** What the user sees: results of calls, values of futures ([SawNothing] if there is no such future or record). *)
  Inductive seen := SawFlag (b : bool) | SawPos (p : Z * Z) | SawNothing.
  Record held := MkHeld { h_positions : list (option (nat * Z)); h_flushes : list (bool + nat) }.

  Definition P_Call (c : ucall) (h : held) (l : local) : prog (seen * held * local) :=
    match c with
    | Write r => x <- P_WriteRecord r l ;; Ret (SawFlag (fst x), h, snd x)
    | FlushNow => x <- P_Flush l ;; Ret (SawFlag (fst x), h, snd x)
    | StartFlush => x <- P_FutureFlush l ;; Ret (SawNothing, MkHeld (h_positions h) (h_flushes h ++ [fst x]), snd x)
    | AskPos => p <- P_Pos l ;; Ret (SawNothing, MkHeld (h_positions h ++ [Some p]) (h_flushes h), l)
    | AskLastPos => p <- P_LastPos l ;; Ret (SawNothing, MkHeld (h_positions h ++ [p]) (h_flushes h), l)
    | GetPos i =>
        match nth_error (h_positions h) i with
        | Some (Some (n, index)) => GetBegin n (fun z => Ret (SawPos (z, index), h, l))
        | _ => Ret (SawNothing, h, l)
        end
    | GetFlush i =>
        match nth_error (h_flushes h) i with
        | Some (inl b) => Ret (SawFlag b, h, l)
        | Some (inr n) => AwaitFlush n (fun b => Ret (SawFlag b, h, l))
        | None => Ret (SawNothing, h, l)
        end
    end.
  Fixpoint P_Calls (cs : list ucall) (h : held) (l : local) : prog (list seen * local) :=
    match cs with
    | [] => Ret ([], l)
    | c :: cs =>
        x <- P_Call c h l ;;
        let '(s, h, l) := x in
        y <- P_Calls cs h l ;;
        Ret (s :: fst y, snd y)
    end.
  (** Creates a writer, makes some calls and closes the writer: what was seen, and the result of Close(). *)
  Definition P_Session (cs : list ucall) (pos : Z) : prog (list seen * bool) :=
    l <- P_New pos ;;
    x <- P_Calls cs (MkHeld [] []) l ;;
    b <- P_Close (snd x) ;;
    Ret (fst x, b).
End User.

(** ** Encoding *)
Section Encoding.
  Variable hash : list Z -> Z.
  Variable compress : Z -> list Z -> list Z.
  Variable transpose_encode : options -> list (list Z) -> list Z.
  (** transpose_encoder.cc:246-263: the records given by their end positions. *)
  Fixpoint cut_records (start : Z) (limits : list Z) (records : list Z) : list (list Z) :=
    match limits with
    | [] => []
    | limit :: limits => zslice start (limit - start) records :: cut_records limit limits records
    end.
  (** record_writer.cc:318-341, 363-380; deferred_encoder.cc:143-157; transpose_encoder.cc:265-283 (the checks). *)
  Definition encode_job (o : options) (j : job) : option chunk :=
    match j with
    | JobMetadata m =>
        let data := transpose_encode o [m] in Some (MkChunk (ChunkHeader hash data kFileMetadata 0 (zlen m)) data)
    | JobChunk d =>
        match
          (if o_transpose o then
             if negb (d_ok d) then None
             else if kMaxNumRecords <? zlen (d_limits d) then None
             else Some (transpose_encode o (cut_records 0 (d_limits d) (d_records d)), kTransposed, zlen (d_limits d), zlen (d_records d))
           else Deferred_EncodeAndClose compress (o_compression o) d)
        with
        | None => None
        | Some (data, chunk_type, num_records, decoded_data_size) =>
            Some (MkChunk (ChunkHeader hash data chunk_type num_records decoded_data_size) data)
        end
    end.
  (** A parallel writer on a file which holds [dest]. *)
  Definition Parallel (o : options) (cs : list ucall) (dest : list Z) : state (list seen * bool) :=
    initial dest (P_Session hash o cs (snd (InitializeWriter (zlen dest)))).
  Definition parallel_step (o : options) (parallelism : Z) := @step hash (encode_job o) parallelism (list seen * bool).
  Definition parallel_run (o : options) (parallelism : Z) := @run hash (encode_job o) parallelism (list seen * bool).
End Encoding.
