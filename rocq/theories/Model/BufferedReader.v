(** Model of riegeli/bytes/{buffered_reader.h,buffered_reader.cc}, of the parts of riegeli/bytes/{reader.h,reader.cc} which read bytes, and of
    riegeli/bytes/{fd_reader.h,fd_reader.cc} (not on Windows) as the source.

    [None] is a failed RIEGELI_ASSERT, an access outside of the buffer, or a loop which has run out of fuel.
    Simplifications: the text of statuses is not modelled, only whether the reader has failed; EINTR (retried by the code) is not modelled;
    a Chain or Cord read to is the list of its bytes (so ReadSlow(Chain) and ReadSlow(Cord), which differ only in the type of their
    destination, are one function); Copy() to a BackwardWriter, and copy_file_range() in Copy() to a FdWriter, are not modelled.
    std::bad_alloc is not modelled. *)
From Verif Require Import Base.Bytes Spec.PosixFile Model.BufferSizer.
From Verif Require Model.BufferedWriter.
Import BufferedWriter(fd, f_content, f_pos, f_append, f_calls, Build_fd, next_call, kMaxFdPosition, sys_seek, sys_size, sys_tell, sys_other).

(** pread() if a position is given, otherwise read(): at most [length] bytes from the position; [None] is failure.  A positive number in
    [f_calls] is the most that read() reads; no bytes are read only at the end of the file. *)
Definition sys_read (at_pos : option Z) (length : Z) (f : fd) : option (list Z) * fd :=
  let '(n, f) := next_call f in
  let pos := match at_pos with Some p => p | None => f_pos f end in
  if n <=? 0 then (None, f)
  else
    let data := zslice pos (Z.min length n) (f_content f) in
    (Some data, {| f_content := f_content f; f_pos := match at_pos with Some _ => f_pos f | None => pos + zlen data end; f_append := f_append f; f_calls := f_calls f |}).
(** lseek(0, SEEK_END): the size *)
Definition sys_seek_end (f : fd) : option Z * fd :=
  let size := zlen (f_content f) in let '(b, f) := sys_seek size f in (if b then Some size else None, f).

(** reader.h: start_, cursor_, limit_ and limit_pos_; buffered_reader.h: buffer_sizer_, buffer_; fd_reader.h: has_independent_pos_,
    growing_source_, supports_random_access_, whether the file descriptor is owned.
    [r_buf] are the bytes from start_ to limit_, which are also the bytes of buffer_; [r_cur] is cursor_ relative to start_.
    [r_spaces] tells whether buffer_ has room in AppendBufferIfExisting() (sized_shared_buffer.cc:202-213), which depends on its capacity
    and on whether it is shared with what was read before; when the list is exhausted then it has no room. *)
Record reader := {
  r_fd : fd; r_failed : bool; r_open : bool; r_limit_pos : Z; r_buf : list Z; r_cur : Z; r_sizer : ReadBufferSizer; r_spaces : list bool;
  r_independent : bool; r_growing : bool; r_random : bool; r_owning : bool }.
Definition ok (r : reader) : bool := r_open r && negb (r_failed r).
Definition available (r : reader) : Z := zlen (r_buf r) - r_cur r.
Definition set_fd (f : fd) (r : reader) : reader :=
  {| r_fd := f; r_failed := r_failed r; r_open := r_open r; r_limit_pos := r_limit_pos r; r_buf := r_buf r; r_cur := r_cur r; r_sizer := r_sizer r;
     r_spaces := r_spaces r; r_independent := r_independent r; r_growing := r_growing r; r_random := r_random r; r_owning := r_owning r |}.
Definition set_state (failed opened : bool) (r : reader) : reader :=
  {| r_fd := r_fd r; r_failed := failed; r_open := opened; r_limit_pos := r_limit_pos r; r_buf := r_buf r; r_cur := r_cur r; r_sizer := r_sizer r;
     r_spaces := r_spaces r; r_independent := r_independent r; r_growing := r_growing r; r_random := r_random r; r_owning := r_owning r |}.
Definition set_limit_pos (p : Z) (r : reader) : reader :=
  {| r_fd := r_fd r; r_failed := r_failed r; r_open := r_open r; r_limit_pos := p; r_buf := r_buf r; r_cur := r_cur r; r_sizer := r_sizer r;
     r_spaces := r_spaces r; r_independent := r_independent r; r_growing := r_growing r; r_random := r_random r; r_owning := r_owning r |}.
Definition set_buf (buf : list Z) (cur : Z) (r : reader) : reader :=
  {| r_fd := r_fd r; r_failed := r_failed r; r_open := r_open r; r_limit_pos := r_limit_pos r; r_buf := buf; r_cur := cur; r_sizer := r_sizer r;
     r_spaces := r_spaces r; r_independent := r_independent r; r_growing := r_growing r; r_random := r_random r; r_owning := r_owning r |}.
Definition set_sizer (s : ReadBufferSizer) (r : reader) : reader :=
  {| r_fd := r_fd r; r_failed := r_failed r; r_open := r_open r; r_limit_pos := r_limit_pos r; r_buf := r_buf r; r_cur := r_cur r; r_sizer := s;
     r_spaces := r_spaces r; r_independent := r_independent r; r_growing := r_growing r; r_random := r_random r; r_owning := r_owning r |}.
Definition set_spaces (s : list bool) (r : reader) : reader :=
  {| r_fd := r_fd r; r_failed := r_failed r; r_open := r_open r; r_limit_pos := r_limit_pos r; r_buf := r_buf r; r_cur := r_cur r; r_sizer := r_sizer r;
     r_spaces := s; r_independent := r_independent r; r_growing := r_growing r; r_random := r_random r; r_owning := r_owning r |}.
Definition set_random (b : bool) (r : reader) : reader :=
  {| r_fd := r_fd r; r_failed := r_failed r; r_open := r_open r; r_limit_pos := r_limit_pos r; r_buf := r_buf r; r_cur := r_cur r; r_sizer := r_sizer r;
     r_spaces := r_spaces r; r_independent := r_independent r; r_growing := r_growing r; r_random := b; r_owning := r_owning r |}.

Definition M (A : Type) : Type := reader -> option (A * reader).
Definition ret {A} (a : A) : M A := fun r => Some (a, r).
Definition bind {A B} (m : M A) (f : A -> M B) : M B := fun r => match m r with Some (a, r') => f a r' | None => None end.
Definition get : M reader := fun r => Some (r, r).
Definition modify (f : reader -> reader) : M unit := fun r => Some (tt, f r).
Definition assert (b : bool) : M unit := fun r => if b then Some (tt, r) else None.
Definition of_option {A} (o : option A) : M A := fun r => match o with Some a => Some (a, r) | None => None end.
Definition syscall {A} (f : fd -> A * fd) : M A := fun r => let '(a, d) := f (r_fd r) in Some (a, set_fd d r).
Notation "x <- m ; k" := (bind m (fun x => k)) (at level 60, m at level 58, right associativity).
Notation "m ;; k" := (bind m (fun _ => k)) (at level 60, right associativity).

(** reader.h:799-809 pos(), start_pos(), with the assertion of the invariant *)
Definition get_pos : M Z := r <- get; assert (zlen (r_buf r) <=? r_limit_pos r);; ret (r_limit_pos r - available r).
Definition get_start_pos : M Z := r <- get; assert (zlen (r_buf r) <=? r_limit_pos r);; ret (r_limit_pos r - zlen (r_buf r)).
(** object.cc:98-106 Fail(), with reader.cc:61-64 (the status is annotated with pos()) *)
Definition Fail : M bool :=
  r <- get;
  if r_failed r then ret false
  else modify (set_state true (r_open r));; (if r_open r then get_pos;; ret tt else ret tt);; ret false.
(** reader.h:707-711 *)
Definition move_cursor (length : Z) : M unit :=
  r <- get; assert ((0 <=? length) && (length <=? available r));; modify (set_buf (r_buf r) (r_cur r + length)).
(** Copying bytes from the cursor, as memcpy() does, and moving it *)
Definition take (length : Z) : M (list Z) :=
  r <- get; move_cursor length;; ret (zslice (r_cur r) length (r_buf r)).
(** reader.h:811-816 *)
Definition move_limit_pos (length : Z) : M unit :=
  r <- get; assert (length <=? 2 ^ 64 - 1 - r_limit_pos r);; modify (set_limit_pos (r_limit_pos r + length)).
(** buffered_reader.h:89-94 *)
Definition set_exact_size (size : Z) : M unit := modify (fun r => set_sizer (rs_set_exact_size (Some size) (r_sizer r)) r).
Definition exact_size (r : reader) : option Z := rs_exact_size (r_sizer r).
(** fd_reader.h:226-230, buffered_reader.h:47 *)
Definition ToleratesReadingAhead (r : reader) : bool := rs_read_all_hint (r_sizer r) || r_random r.
(** buffered_reader.h:49 (reader.h:422): SupportsSize() is overridden by BufferedReader *)
Definition SupportsSize (r : reader) : bool := match exact_size r with Some _ => true | None => false end.

(** fd_reader.cc:401-469 the loop in ReadInternal(); what was read is returned too *)
Fixpoint read_loop (fuel : nat) (min_length max_length : Z) : M (bool * list Z) :=
  match fuel with
  | O => fun _ => None
  | S fuel =>
    r <- get;
    if kMaxFdPosition <=? r_limit_pos r then b <- Fail; ret (b, [])
    else
      let length_to_read := Z.min (Z.min (Z.min max_length (kMaxFdPosition - r_limit_pos r)) (2 ^ 62)) (2 ^ 30) in
      data <- syscall (sys_read (if r_independent r then Some (r_limit_pos r) else None) length_to_read);
      match data with
      | None => b <- Fail; ret (b, [])
      | Some [] => (if r_growing r then ret tt else set_exact_size (r_limit_pos r));; ret (false, [])
      | Some data =>
        assert (zlen data <=? length_to_read);;
        move_limit_pos (zlen data);;
        if min_length <=? zlen data then ret (true, data)
        else rest <- read_loop fuel (min_length - zlen data) (max_length - zlen data); ret (fst rest, data ++ snd rest)
      end
  end.
(** fd_reader.cc:389-470 *)
Definition ReadInternal (min_length max_length : Z) : M (bool * list Z) :=
  r <- get;
  assert ((0 <? min_length) && (min_length <=? max_length) && ok r);;
  read_loop (S (length (f_content (r_fd r)))) min_length max_length.
(** sized_shared_buffer.cc:202-213; an empty span is taken as no room *)
Definition AppendBufferIfExisting (length : Z) : M bool :=
  r <- get;
  match r_spaces r with
  | [] => ret false
  | b :: spaces => modify (set_spaces spaces);; ret (b && negb (length =? 0))
  end.
(** buffered_reader.cc:93-116, 206-232, 279-305, 379-403: reading to [buffer_] after [kept] bytes, of which [cursor_index] precede the cursor *)
Definition fill (min_length_to_read buffer_length : Z) (kept : list Z) (cursor_index : Z) : M bool :=
  r <- get;
  let pos_before := r_limit_pos r in
  rd <- ReadInternal min_length_to_read buffer_length;
  let '(read_ok, data) := rd in
  r <- get;
  assert (pos_before <=? r_limit_pos r);;
  let length_read := r_limit_pos r - pos_before in
  assert (length_read <=? buffer_length);;
  assert (if read_ok : bool then min_length_to_read <=? length_read else length_read <? min_length_to_read);;
  (** RemoveSuffix(): what remains is what was read *)
  assert (length_read =? zlen data);;
  assert (cursor_index <=? zlen (kept ++ data));;
  modify (set_buf (kept ++ data) cursor_index);; ret read_ok.
(** buffered_reader.cc:70-116 *)
Definition PullSlow (min_length recommended_length : Z) : M bool :=
  r <- get;
  assert (available r <? min_length);;
  if negb (ok r) then ret false
  else
    let available_length := available r in
    buffer_length <- of_option (rs_BufferLength (r_sizer r) (r_limit_pos r) (min_length - available_length) (SaturatingSub recommended_length available_length));
    if buffer_length =? 0 then ret false
    else
      room <- AppendBufferIfExisting buffer_length;
      let min_length_to_read := if ToleratesReadingAhead r then buffer_length else Z.min (min_length - available_length) buffer_length in
      (if room : bool then fill min_length_to_read buffer_length (r_buf r) (r_cur r)
       else fill min_length_to_read buffer_length (zdrop (r_cur r) (r_buf r)) 0);;
      r <- get; ret (min_length <=? available r).
(** reader.h:696-705 *)
Definition Pull (min_length recommended_length : Z) : M bool :=
  r <- get;
  if min_length <=? available r then ret true
  else
    result <- PullSlow min_length recommended_length; r <- get;
    if negb result then ret false else assert (min_length <=? available r);; ret true.
(** buffered_reader.cc:59-62 *)
Definition SyncBuffer : M unit := modify (set_buf [] 0).
(** buffered_reader.cc:128-132, reader.cc:819-822: the loop *)
Fixpoint seek_loop (fuel : nat) (new_pos : Z) : M bool :=
  match fuel with
  | O => fun _ => None
  | S fuel =>
    r <- get; move_cursor (available r);;
    pulled <- PullSlow 1 0; r <- get;
    if negb pulled then ret false else if r_limit_pos r <? new_pos then seek_loop fuel new_pos else ret true
  end.
(** buffered_reader.cc:118-139 BufferedReader::SeekBehindBuffer() *)
Definition BufferedSeekBehindBuffer (new_pos : Z) : M bool :=
  start <- get_start_pos; r <- get;
  assert (((new_pos <? start) || (r_limit_pos r <? new_pos)) && (zlen (r_buf r) =? 0));;
  if new_pos <=? r_limit_pos r then Fail
  else
    found <- seek_loop (S (length (f_content (r_fd r)))) new_pos;
    if negb found then ret false
    else
      r <- get;
      let available_length := r_limit_pos r - new_pos in
      assert (available_length <=? zlen (r_buf r));;
      modify (set_buf (r_buf r) (zlen (r_buf r) - available_length));; ret true.
(** fd_reader.cc:531-547 *)
Definition SeekInternal (new_pos : Z) : M bool :=
  r <- get;
  assert ((available r =? 0) && r_random r);;
  sought <- (if r_independent r then ret true else syscall (sys_seek new_pos));
  if negb sought then Fail else modify (set_limit_pos new_pos);; ret true.
(** fd_reader.cc:549-585 *)
Definition SeekBehindBuffer (new_pos : Z) : M bool :=
  start <- get_start_pos; r <- get;
  assert (((new_pos <? start) || (r_limit_pos r <? new_pos)) && (zlen (r_buf r) =? 0));;
  if negb (r_random r) then
    if new_pos <? start then (if ok r then Fail else ret false) else BufferedSeekBehindBuffer new_pos
  else if negb (ok r) then ret false
  else if r_limit_pos r <? new_pos then
    let seek_to file_size := if file_size <? new_pos then SeekInternal file_size;; ret false else SeekInternal new_pos in
    match exact_size r with
    | Some file_size => seek_to file_size
    | None =>
      stat <- syscall sys_size;
      match stat with
      | None => Fail
      | Some st_size => (if r_growing r then ret tt else set_exact_size st_size);; seek_to st_size
      end
    end
  else SeekInternal new_pos.

(** reader.cc:344-358 Reader::ReadSlow(char* ): the loop *)
Fixpoint read_slow_loop (fuel : nat) (length : Z) : M (bool * list Z) :=
  match fuel with
  | O => fun _ => None
  | S fuel =>
    r <- get;
    let available_length := available r in
    data <- take available_length;
    let length := length - available_length in
    pulled <- PullSlow 1 length; r <- get;
    if negb pulled then ret (false, data)
    else if available r <? length then rest <- read_slow_loop fuel length; ret (fst rest, data ++ snd rest)
    else rest <- take length; ret (true, data ++ rest)
  end.
(** buffered_reader.cc:152-162, 504-510: not more than the known size is read; [None] is ExactSizeReached() *)
Definition up_to_exact_size (length : Z) (r : reader) : option Z :=
  match exact_size r with
  | Some e => if e <=? r_limit_pos r then None else Some (Z.min length (e - r_limit_pos r))
  | None => Some length
  end.
(** buffered_reader.cc:141-168 ReadSlow(char* ) *)
Definition ReadSlow (length : Z) : M (bool * list Z) :=
  r <- get;
  assert (available r <? length);;
  pos <- get_pos;
  buffer_length <- of_option (rs_BufferLength (r_sizer r) pos 0 0);
  if buffer_length <=? length then
    let available_length := available r in
    data <- take available_length;
    let length := length - available_length in
    SyncBuffer;;
    r <- get;
    if negb (ok r) then ret (false, data)
    else
      match up_to_exact_size length r with
      | None => ret (false, data)
      | Some length_to_read =>
        rd <- ReadInternal length_to_read length_to_read;
        ret (fst rd && (length <=? length_to_read), data ++ snd rd)
      end
  else read_slow_loop (S (S (List.length (f_content (r_fd r))))) length.
(** reader.cc:361-420 ReadSlow(char*, length_read), ReadSlow(string): with the assertions about the position *)
Definition check_read (length : Z) (m : M (bool * list Z)) : M (bool * list Z) :=
  pos_before <- get_pos;
  rd <- m;
  pos <- get_pos;
  assert ((pos_before <=? pos) && (pos - pos_before <=? length));;
  assert (negb (fst rd) || (pos - pos_before =? length));;
  (** length_read is pos - pos_before, and the destination begins with that many bytes *)
  assert (zlen (snd rd) =? pos - pos_before);;
  ret rd.
(** reader.h:754-763 Read(char* ), reader.cc:70-81, 107-124 Read(string), ReadAndAppend(string) *)
Definition Read (length : Z) : M (bool * list Z) :=
  r <- get;
  if length <=? available r then data <- take length; ret (true, data) else check_read length (ReadSlow length).
(** reader.h:744-752 Read(string_view) *)
Definition ReadView (length : Z) : M (bool * list Z) :=
  pulled <- Pull length 0; r <- get;
  data <- take (if pulled : bool then length else available r); ret (pulled, data).
(** reader.h:730-735 ReadByte() *)
Definition ReadByte : M (bool * list Z) :=
  pulled <- Pull 1 0; if negb pulled then ret (false, []) else data <- take 1; ret (true, data).
(** buffered_reader.cc:170-240, 242-313: the loop in ReadSlow(Chain), ReadSlow(Cord), and what follows it *)
Fixpoint read_chain_loop (fuel : nat) (length : Z) : M (bool * list Z) :=
  match fuel with
  | O => fun _ => None
  | S fuel =>
    r <- get;
    if length <=? available r then data <- take length; ret (true, data)
    else
      let available_length := available r in
      if negb (ok r) then data <- take available_length; ret (false, data)
      else
        buffer_length <- of_option (rs_BufferLength (r_sizer r) (r_limit_pos r) 1 (length - available_length));
        room <- AppendBufferIfExisting buffer_length;
        if negb room && (buffer_length =? 0) then data <- take available_length; SyncBuffer;; ret (false, data)
        else
          let data := if room : bool then [] else zdrop (r_cur r) (r_buf r) in
          let length := length - zlen data in
          let available_length := if room : bool then available_length else 0 in
          let min_length_to_read := if ToleratesReadingAhead r then buffer_length else Z.min (length - available_length) buffer_length in
          read_ok <- (if room : bool then fill min_length_to_read buffer_length (r_buf r) (r_cur r) else fill min_length_to_read buffer_length [] 0);
          if negb read_ok then
            r <- get;
            let enough_read := length <=? available r in
            rest <- take (if enough_read then length else available r); ret (enough_read, data ++ rest)
          else rest <- read_chain_loop fuel length; ret (fst rest, data ++ snd rest)
  end.
Definition kMaxBytesToCopy : Z := 511.
Definition ReadSlowChain (length : Z) : M (bool * list Z) :=
  r <- get;
  assert (Z.min (available r) kMaxBytesToCopy <? length);;
  read_chain_loop (S (S (List.length (f_content (r_fd r))))) length.
(** reader.cc:83-105, 126-158 Read(Chain), Read(Cord), ReadAndAppend(Chain), ReadAndAppend(Cord), 441-464 *)
Definition ReadChain (length : Z) : M (bool * list Z) :=
  r <- get;
  if (length <=? available r) && (length <=? kMaxBytesToCopy) then data <- take length; ret (true, data)
  else check_read length (ReadSlowChain length).
(** reader.cc:578-590, buffered_reader.cc:493-519 ReadSomeSlow(char* ) *)
Definition ReadSomeSlow (max_length : Z) : M (bool * list Z) :=
  r <- get;
  assert ((0 <? max_length) && (available r =? 0));;
  buffer_length <- of_option (rs_BufferLength (r_sizer r) (r_limit_pos r) 0 0);
  if buffer_length <=? max_length then
    if negb (ok r) then ret (false, [])
    else
      SyncBuffer;;
      r <- get;
      match up_to_exact_size max_length r with
      | None => ret (false, [])
      | Some max_length =>
        rd <- ReadInternal (if ToleratesReadingAhead r then max_length else 1) max_length;
        r' <- get;
        assert (r_limit_pos r <=? r_limit_pos r');;
        ret (negb (r_limit_pos r' =? r_limit_pos r), snd rd)
      end
  else
    pulled <- PullSlow 1 max_length; r <- get;
    if negb pulled then ret (false, []) else data <- take (Z.min max_length (available r)); ret (true, data).
(** reader.cc:592-614: the assertions about the position *)
Definition check_read_some (max_length : Z) (m : M (bool * list Z)) : M (bool * list Z) :=
  pos_before <- get_pos;
  rd <- m;
  pos <- get_pos;
  assert ((pos_before <=? pos) && (pos - pos_before <=? max_length));;
  assert (if fst rd : bool then 0 <? pos - pos_before else pos - pos_before =? 0);;
  assert (zlen (snd rd) =? pos - pos_before);;
  ret rd.
(** reader.h:776-790 ReadSome(char* ), reader.cc:180-195, 240-262 ReadSome(string), ReadAndAppendSome(string) *)
Definition ReadSome (max_length : Z) : M (bool * list Z) :=
  r <- get;
  if (0 <? available r) || (max_length =? 0) then data <- take (Z.min max_length (available r)); ret (true, data)
  else check_read_some max_length (ReadSomeSlow max_length).
(** reader.h:765-774 ReadSome(string_view) *)
Definition ReadSomeView (max_length : Z) : M (bool * list Z) :=
  pulled <- (if max_length =? 0 then ret true else Pull 1 max_length); r <- get;
  data <- take (Z.min max_length (available r)); ret (pulled, data).
(** reader.cc:197-238, 264-318 ReadSome(Chain), ReadSome(Cord), ReadAndAppendSome(Chain), ReadAndAppendSome(Cord), 667-682, 712-727 *)
Definition ReadSomeChain (max_length : Z) : M (bool * list Z) :=
  r <- get;
  if (0 <? available r) || (max_length =? 0) then
    let max_length := Z.min max_length (available r) in
    if max_length <=? kMaxBytesToCopy then data <- take max_length; ret (true, data) else check_read max_length (ReadSlowChain max_length)
  else
    check_read_some max_length
      (r <- get;
       assert ((0 <? max_length) && (available r =? 0));;
       pulled <- PullSlow 1 max_length; r <- get;
       if negb pulled then ret (false, []) else ReadChain (Z.min max_length (available r))).
(** reader.h:792-795, buffered_reader.cc:555-561 *)
Definition ReadHint (min_length recommended_length : Z) : M unit :=
  r <- get; if min_length <=? available r then ret tt else PullSlow min_length recommended_length;; ret tt.
(** buffered_reader.cc:64-66, fd_reader.cc:380-385; posix_fadvise() has no effect on what is modelled *)
Definition SetReadAllHint (hint : bool) : M unit := modify (fun r => set_sizer (rs_set_read_all_hint hint (r_sizer r)) r).
Definition end_run : M unit := pos <- get_pos; r <- get; s <- of_option (rs_EndRun pos (r_sizer r)); modify (set_sizer s).
(** buffered_reader.h:98 *)
Definition BeginRun : M unit := start <- get_start_pos; modify (fun r => set_sizer (rs_BeginRun start (r_sizer r)) r).
(** buffered_reader.cc:563-574 *)
Definition Sync : M bool :=
  r <- get;
  if (0 <? available r) && negb (r_random r) then ret (ok r)
  else
    new_pos <- get_pos;
    end_run;;
    SyncBuffer;;
    r <- get;
    result <- (if new_pos =? r_limit_pos r then ret (ok r) else SeekBehindBuffer new_pos);
    BeginRun;; ret result.
(** buffered_reader.cc:576-589 *)
Definition SeekSlow (new_pos : Z) : M bool :=
  start <- get_start_pos; r <- get;
  assert ((new_pos <? start) || (r_limit_pos r <? new_pos));;
  if negb (r_random r) then SyncBuffer;; SeekBehindBuffer new_pos
  else end_run;; SyncBuffer;; result <- SeekBehindBuffer new_pos; BeginRun;; ret result.
(** reader.h:822-828 *)
Definition Seek (new_pos : Z) : M bool :=
  start <- get_start_pos; r <- get;
  if (start <=? new_pos) && (new_pos <=? r_limit_pos r) then
    modify (set_buf (r_buf r) (zlen (r_buf r) - (r_limit_pos r - new_pos)));; ret true
  else SeekSlow new_pos.
(** reader.h:830-865, with length_skipped *)
Definition Skip (length : Z) : M (bool * Z) :=
  r <- get;
  if length <=? available r then move_cursor length;; ret (true, length)
  else
    pos_before <- get_pos;
    seek_ok <- (if 2 ^ 64 - 1 - pos_before <? length then SeekSlow (2 ^ 64 - 1);; ret false else SeekSlow (pos_before + length));
    pos <- get_pos;
    assert (pos <=? pos_before + length);;
    if negb seek_ok then ret (false, SaturatingSub pos pos_before)
    else assert (pos =? pos_before + length);; ret (true, length).
(** fd_reader.cc:587-605 *)
Definition Size : M (option Z) :=
  r <- get;
  if negb (ok r) then ret None
  else
    match exact_size r with
    | Some size => ret (Some size)
    | None =>
      if negb (r_random r) then Fail;; ret None
      else
        stat <- syscall sys_size;
        match stat with
        | None => Fail;; ret None
        | Some st_size => (if r_growing r then ret tt else set_exact_size st_size);; ret (Some st_size)
        end
    end.
(** reader.cc:47-59 *)
Definition VerifyEnd : M unit :=
  pulled <- Pull 1 0;
  if negb pulled then ret tt
  else r <- get; (if SupportsSize r then Size;; get_pos;; ret tt else ret tt);; Fail;; ret tt.
(** object.cc:90-94 Close(), fd_reader.h:636-644, fd_reader.cc:334-345, buffered_reader.cc:43-57, reader.h:680-683: Done() *)
Definition Close : M bool :=
  r <- get;
  if negb (r_open r) then ret (negb (r_failed r))
  else
    (if (0 <? available r) && r_random r then new_pos <- get_pos; SyncBuffer;; SeekBehindBuffer new_pos;; ret tt else ret tt);;
    pos <- get_pos;
    modify (set_limit_pos pos);; SyncBuffer;;
    r <- get;
    (if r_owning r then closed <- syscall sys_other; if negb closed then Fail else ret true else ret true);;
    r <- get;
    modify (set_state (r_failed r) false);; ret (negb (r_failed r)).

(** fd_reader.cc:177-332 InitializePos(), for a file descriptor which is open *)
Definition InitializePos (assumed_pos independent_pos : option Z) : M unit :=
  match assumed_pos, independent_pos with
  | Some _, Some _ => Fail;; ret tt
  | Some pos, None => if kMaxFdPosition <? pos then Fail;; ret tt else modify (set_limit_pos pos);; BeginRun
  | None, Some pos =>
    modify (fun r => {| r_fd := r_fd r; r_failed := r_failed r; r_open := r_open r; r_limit_pos := r_limit_pos r; r_buf := r_buf r; r_cur := r_cur r;
                        r_sizer := r_sizer r; r_spaces := r_spaces r; r_independent := true; r_growing := r_growing r; r_random := r_random r;
                        r_owning := r_owning r |});;
    if kMaxFdPosition <? pos then Fail;; ret tt else modify (set_limit_pos pos);; modify (set_random true);; BeginRun
  | None, None =>
    file_pos <- syscall sys_tell;
    match file_pos with
    | None => ret tt
    | Some file_pos =>
      modify (set_limit_pos file_pos);;
      let regular file_size :=
        modify (set_random true);;
        r <- get; (if r_growing r then ret tt else set_exact_size file_size);; BeginRun in
      let seek_back file_size (k : M unit) :=
        r <- get;
        if negb (r_limit_pos r =? file_size) then sought <- syscall (sys_seek (r_limit_pos r)); if negb sought then Fail;; ret tt else k
        else k in
      file_size <- syscall sys_seek_end;
      match file_size with
      | None => ret tt
      | Some file_size =>
        seek_back file_size
          (r <- get;
           if (file_size =? 0) && (r_limit_pos r =? 0) then
             pulled <- PullSlow 1 0; r <- get;
             if pulled : bool then
               if r_growing r then
                 file_size <- syscall sys_seek_end;
                 match file_size with
                 | None => Fail;; ret tt
                 | Some file_size => seek_back file_size (if 0 <? file_size then regular file_size else ret tt)
                 end
               else ret tt
             else if negb (ok r) then ret tt else regular file_size
           else regular file_size)
      end
    end
  end.
(** fd_reader.h FdReader(fd, options) *)
Definition new_reader (f : fd) (options : BufferOptions) (assumed_pos independent_pos : option Z) (growing owning : bool) (spaces : list bool) : option reader :=
  option_map snd
    (InitializePos assumed_pos independent_pos
       {| r_fd := f; r_failed := false; r_open := true; r_limit_pos := 0; r_buf := []; r_cur := 0; r_sizer := new_read_sizer options;
          r_spaces := spaces; r_independent := false; r_growing := growing; r_random := false; r_owning := owning |}).

(** The functions of the interface; what is read is returned together with whether it was enough *)
Inductive call :=
  | CPull (min_length recommended_length : Z) | CRead (length : Z) | CReadView (length : Z) | CReadByte | CReadChain (length : Z)
  | CReadSome (max_length : Z) | CReadSomeView (max_length : Z) | CReadSomeChain (max_length : Z) | CReadHint (min_length recommended_length : Z)
  | CSetReadAllHint (hint : bool) | CSync | CSeek (new_pos : Z) | CSkip (length : Z) | CSize | CVerifyEnd | CClose.
Inductive result := RBool (b : bool) | RBytes (b : bool) (data : list Z) | RSkip (b : bool) (length : Z) | RSize (s : option Z) | RUnit.
Definition exec (c : call) : M result :=
  let bytes (m : M (bool * list Z)) := rd <- m; ret (RBytes (fst rd) (snd rd)) in
  match c with
  | CPull min_length recommended_length => b <- Pull min_length recommended_length; ret (RBool b)
  | CRead length => bytes (Read length)
  | CReadView length => bytes (ReadView length)
  | CReadByte => bytes ReadByte
  | CReadChain length => bytes (ReadChain length)
  | CReadSome max_length => bytes (ReadSome max_length)
  | CReadSomeView max_length => bytes (ReadSomeView max_length)
  | CReadSomeChain max_length => bytes (ReadSomeChain max_length)
  | CReadHint min_length recommended_length => ReadHint min_length recommended_length;; ret RUnit
  | CSetReadAllHint hint => SetReadAllHint hint;; ret RUnit
  | CSync => b <- Sync; ret (RBool b)
  | CSeek new_pos => b <- Seek new_pos; ret (RBool b)
  | CSkip length => s <- Skip length; ret (RSkip (fst s) (snd s))
  | CSize => s <- Size; ret (RSize s)
  | CVerifyEnd => VerifyEnd;; ret RUnit
  | CClose => b <- Close; ret (RBool b)
  end.
(** A history of calls: after each call pos() and ok() are observed, and the position of the file descriptor *)
Record observation := { o_result : result; o_pos : Z; o_ok : bool; o_fd_pos : Z }.
Definition observe (x : result) : M observation :=
  pos <- get_pos; r <- get; ret {| o_result := x; o_pos := pos; o_ok := ok r; o_fd_pos := f_pos (r_fd r) |}.
Fixpoint run (calls : list call) : M (list observation) :=
  match calls with [] => ret [] | c :: calls => x <- exec c; o <- observe x; os <- run calls; ret (o :: os) end.
