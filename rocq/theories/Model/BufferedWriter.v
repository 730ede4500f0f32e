(** Model of riegeli/bytes/{buffered_writer.h,buffered_writer.cc}, of the parts of riegeli/bytes/{writer.h,writer.cc} which write bytes, and of
    riegeli/bytes/{fd_writer.h,fd_writer.cc} (not on Windows) as the destination.

    [None] is a failed RIEGELI_ASSERT, an access outside of the buffer, a read of bytes of the buffer which were never written, or a loop
    which has run out of fuel.
    Simplifications: the text of statuses is not modelled, only whether the writer has failed; ReadMode() is not modelled (so read_mode_
    is always false); EINTR (retried by the code) is not modelled; numbers, Cords and stringified objects are written by the same
    functions as strings.  std::bad_alloc is not modelled. *)
From Verif Require Import Base.Bytes Spec.PosixFile Model.BufferSizer Model.ByteFill.

(** A file descriptor: the content of the file, the position of the file descriptor, whether it was opened with O_APPEND, and what will
    happen to the next system calls: 0 or less makes a call fail, a positive number makes it succeed and is the most that write() writes;
    when the list is exhausted then calls succeed and write everything. *)
Record fd := { f_content : list Z; f_pos : Z; f_append : bool; f_calls : list Z }.
Definition next_call (f : fd) : Z * fd :=
  match f_calls f with
  | [] => (2 ^ 62, f)
  | n :: calls => (n, {| f_content := f_content f; f_pos := f_pos f; f_append := f_append f; f_calls := calls |})
  end.
(** fd_writer.cc:78: the largest off_t; no file is longer *)
Definition kMaxFdPosition : Z := 2 ^ 63 - 1.
(** pwrite() if a position is given, otherwise write(); [None] is failure, in particular if the file would be too long *)
Definition sys_write (at_pos : option Z) (data : list Z) (f : fd) : option Z * fd :=
  let '(n, f) := next_call f in
  let length := Z.min (zlen data) n in
  let pos := match at_pos with Some p => p | None => if f_append f then zlen (f_content f) else f_pos f end in
  if (n <=? 0) || (kMaxFdPosition <? pos + length) then (None, f)
  else
    (Some length, {| f_content := write_at (f_content f) pos (ztake length data);
                     f_pos := match at_pos with Some _ => f_pos f | None => pos + length end; f_append := f_append f; f_calls := f_calls f |}).
(** lseek(SEEK_SET), lseek(SEEK_END), ftruncate(): [false] is failure *)
Definition sys_seek (pos : Z) (f : fd) : bool * fd :=
  let '(n, f) := next_call f in
  if n <=? 0 then (false, f) else (true, {| f_content := f_content f; f_pos := pos; f_append := f_append f; f_calls := f_calls f |}).
Definition sys_seek_end (f : fd) : bool * fd := sys_seek (zlen (f_content f)) f.
Definition sys_truncate (size : Z) (f : fd) : bool * fd :=
  let '(n, f) := next_call f in
  if n <=? 0 then (false, f) else (true, {| f_content := set_size (f_content f) size; f_pos := f_pos f; f_append := f_append f; f_calls := f_calls f |}).
(** fstat(): the size; lseek(0, SEEK_CUR): the position *)
Definition sys_size (f : fd) : option Z * fd := let '(n, f) := next_call f in (if n <=? 0 then None else Some (zlen (f_content f)), f).
Definition sys_tell (f : fd) : option Z * fd := let '(n, f) := next_call f in (if n <=? 0 then None else Some (f_pos f), f).
(** fsync(), close() *)
Definition sys_other (f : fd) : bool * fd := let '(n, f) := next_call f in (0 <? n, f).

(** writer.h: start_, cursor_, limit_ and start_pos_; buffered_writer.h: buffer_sizer_, buffer_, written_; fd_writer.h: has_independent_pos_,
    supports_random_access_ ([None] is kUnknown), whether the file descriptor is owned.
    [w_buf] are the bytes from start_ which have been written to the buffer, [w_cur] and [w_lim] are cursor_ and limit_ relative to start_. *)
Record writer := {
  w_fd : fd; w_failed : bool; w_open : bool; w_start_pos : Z; w_buf : list Z; w_cur : Z; w_lim : Z; w_written : Z;
  w_sizer : WriteBufferSizer; w_independent : bool; w_random : option bool; w_owning : bool }.
Definition ok (w : writer) : bool := w_open w && negb (w_failed w).
Definition available (w : writer) : Z := w_lim w - w_cur w.
Definition set_fd (f : fd) (w : writer) : writer :=
  {| w_fd := f; w_failed := w_failed w; w_open := w_open w; w_start_pos := w_start_pos w; w_buf := w_buf w; w_cur := w_cur w; w_lim := w_lim w;
     w_written := w_written w; w_sizer := w_sizer w; w_independent := w_independent w; w_random := w_random w; w_owning := w_owning w |}.
Definition set_start_pos (p : Z) (w : writer) : writer :=
  {| w_fd := w_fd w; w_failed := w_failed w; w_open := w_open w; w_start_pos := p; w_buf := w_buf w; w_cur := w_cur w; w_lim := w_lim w;
     w_written := w_written w; w_sizer := w_sizer w; w_independent := w_independent w; w_random := w_random w; w_owning := w_owning w |}.
Definition set_buf (buf : list Z) (cur lim : Z) (w : writer) : writer :=
  {| w_fd := w_fd w; w_failed := w_failed w; w_open := w_open w; w_start_pos := w_start_pos w; w_buf := buf; w_cur := cur; w_lim := lim;
     w_written := w_written w; w_sizer := w_sizer w; w_independent := w_independent w; w_random := w_random w; w_owning := w_owning w |}.
Definition set_written (n : Z) (w : writer) : writer :=
  {| w_fd := w_fd w; w_failed := w_failed w; w_open := w_open w; w_start_pos := w_start_pos w; w_buf := w_buf w; w_cur := w_cur w; w_lim := w_lim w;
     w_written := n; w_sizer := w_sizer w; w_independent := w_independent w; w_random := w_random w; w_owning := w_owning w |}.
Definition set_sizer (s : WriteBufferSizer) (w : writer) : writer :=
  {| w_fd := w_fd w; w_failed := w_failed w; w_open := w_open w; w_start_pos := w_start_pos w; w_buf := w_buf w; w_cur := w_cur w; w_lim := w_lim w;
     w_written := w_written w; w_sizer := s; w_independent := w_independent w; w_random := w_random w; w_owning := w_owning w |}.
Definition set_random (b : bool) (w : writer) : writer :=
  {| w_fd := w_fd w; w_failed := w_failed w; w_open := w_open w; w_start_pos := w_start_pos w; w_buf := w_buf w; w_cur := w_cur w; w_lim := w_lim w;
     w_written := w_written w; w_sizer := w_sizer w; w_independent := w_independent w; w_random := Some b; w_owning := w_owning w |}.
Definition set_state (failed opened : bool) (w : writer) : writer :=
  {| w_fd := w_fd w; w_failed := failed; w_open := opened; w_start_pos := w_start_pos w; w_buf := w_buf w; w_cur := w_cur w; w_lim := w_lim w;
     w_written := w_written w; w_sizer := w_sizer w; w_independent := w_independent w; w_random := w_random w; w_owning := w_owning w |}.

Definition M (A : Type) : Type := writer -> option (A * writer).
Definition ret {A} (a : A) : M A := fun w => Some (a, w).
Definition bind {A B} (m : M A) (f : A -> M B) : M B := fun w => match m w with Some (a, w') => f a w' | None => None end.
Definition get : M writer := fun w => Some (w, w).
Definition modify (f : writer -> writer) : M unit := fun w => Some (tt, f w).
Definition assert (b : bool) : M unit := fun w => if b then Some (tt, w) else None.
Definition of_option {A} (o : option A) : M A := fun w => match o with Some a => Some (a, w) | None => None end.
Definition syscall {A} (f : fd -> A * fd) : M A := fun w => let '(a, d) := f (w_fd w) in Some (a, set_fd d w).
Notation "x <- m ; k" := (bind m (fun x => k)) (at level 60, m at level 58, right associativity).
Notation "m ;; k" := (bind m (fun _ => k)) (at level 60, right associativity).

(** writer.h:722-727 pos(); with the assertion of the invariant *)
Definition get_pos : M Z := w <- get; assert (w_start_pos w <=? 2 ^ 64 - 1 - w_lim w);; ret (w_start_pos w + w_cur w).
(** object.cc:98-106 Fail(), with writer.cc:69 OnFail(): set_buffer(start()), and 71-74 (the status is annotated with pos()) *)
Definition Fail : M bool :=
  w <- get;
  if w_failed w then ret false
  else modify (set_state true (w_open w));; (if w_open w then get_pos;; ret tt else ret tt);; modify (fun w => set_buf (w_buf w) 0 0 w);; ret false.

(** writer.h:738-743 *)
Definition move_start_pos (length : Z) : M unit :=
  w <- get; assert (length <=? 2 ^ 64 - 1 - w_start_pos w);; modify (set_start_pos (w_start_pos w + length)).
(** fd_writer.cc:448-512 the loop in WriteInternal() *)
Fixpoint write_loop (fuel : nat) (src : list Z) : M bool :=
  match fuel with
  | O => fun _ => None
  | S fuel =>
    w <- get;
    let length_to_write := Z.min (Z.min (zlen src) (2 ^ 62)) (2 ^ 30) in
    length_written <- syscall (sys_write (if w_independent w then Some (w_start_pos w) else None) (ztake length_to_write src));
    match length_written with
    | None => Fail
    | Some n =>
      assert ((0 <? n) && (n <=? length_to_write));;
      move_start_pos n;;
      let src := zdrop n src in
      match src with [] => ret true | _ => write_loop fuel src end
    end
  end.
(** fd_writer.cc:437-515 WriteInternal() *)
Definition WriteInternal (src : list Z) : M bool :=
  w <- get;
  assert (match src with [] => false | _ => true end && ok w);;
  if u64 (kMaxFdPosition - w_start_pos w) <? zlen src then Fail else write_loop (length src) src.
(** fd_writer.cc:297-313, 315-337 SupportsRandomAccess(), with SizeStatus() *)
Definition SupportsRandomAccess : M bool :=
  w <- get;
  match w_random w with
  | Some b => ret b
  | None =>
    if negb (ok w) then ret false
    else
      supported <- syscall sys_seek_end;
      if negb supported then modify (set_random false);; ret false
      else
        restored <- syscall (sys_seek (w_start_pos w));
        if negb restored then Fail;; modify (set_random false);; ret false
        else modify (set_random true);; ret true
  end.
(** fd_writer.cc:583-598 *)
Definition SeekInternal (new_pos : Z) : M bool :=
  w <- get;
  assert ((w_lim w =? 0) && ok w);;
  (if w_independent w then modify (set_start_pos new_pos);; ret true
   else result <- syscall (sys_seek new_pos); if negb result then Fail else modify (set_start_pos new_pos);; ret true).
(** fd_writer.cc:600-627 *)
Definition SeekBehindBuffer (new_pos : Z) : M bool :=
  pos <- get_pos; w <- get;
  assert (negb (new_pos =? pos) && (w_lim w =? 0));;
  random <- SupportsRandomAccess; w <- get;
  if negb random then (if ok w then Fail else ret false)
  else if negb (ok w) then ret false
  else if w_start_pos w <? new_pos then
    stat <- syscall sys_size;
    match stat with
    | None => Fail
    | Some st_size => if st_size <? new_pos then SeekInternal st_size;; ret false else SeekInternal new_pos
    end
  else SeekInternal new_pos.
(** fd_writer.cc:629-645 *)
Definition SizeBehindBuffer : M (option Z) :=
  w <- get;
  assert (w_lim w =? 0);;
  random <- SupportsRandomAccess; w <- get;
  if negb random then (if ok w then Fail else ret false);; ret None
  else if negb (ok w) then ret None
  else stat <- syscall sys_size; match stat with None => Fail;; ret None | Some st_size => ret (Some st_size) end.
(** fd_writer.cc:647-667 *)
Definition TruncateInternal (new_size : Z) : M bool :=
  w <- get;
  assert ((w_lim w =? 0) && ok w);;
  result <- syscall (sys_truncate new_size);
  if negb result then Fail else ret true.
(** fd_writer.cc:669-690 *)
Definition TruncateBehindBuffer (new_size : Z) : M bool :=
  w <- get;
  assert (w_lim w =? 0);;
  let truncate := result <- TruncateInternal new_size; if negb result then ret false else SeekInternal new_size in
  if negb (ok w) then ret false
  else if w_start_pos w <=? new_size then
    stat <- syscall sys_size;
    match stat with
    | None => Fail
    | Some st_size => if st_size <? new_size then SeekInternal st_size;; ret false else truncate
    end
  else truncate.
(** buffered_writer.cc:95-103, fd_writer.cc:574-581 *)
Definition FlushBehindBuffer (src : list Z) : M bool :=
  w <- get;
  assert (w_lim w =? 0);;
  if negb (ok w) then ret false else match src with [] => ret true | _ => WriteInternal src end.

(** buffered_writer.cc:39-43, 60-64, 156-161: the data in the buffer (up to the larger of the cursor and written_) and the position are taken
    and the buffer is removed *)
Definition take_buffer : M (list Z * Z) :=
  w <- get;
  let size := Z.max (w_cur w) (w_written w) in
  assert (size <=? zlen (w_buf w));;
  new_pos <- get_pos;
  modify (set_buf [] 0 0);; modify (set_written 0);;
  ret (ztake size (w_buf w), new_pos).
(** buffered_writer.cc:59-73 *)
Definition SyncBuffer : M bool :=
  d <- take_buffer; let '(data, new_pos) := d in
  match data with
  | [] => ret true
  | _ =>
    w <- get;
    if negb (ok w) then ret false
    else
      result <- WriteInternal data;
      if negb result then ret false
      else w <- get; if negb (w_start_pos w =? new_pos) then SeekBehindBuffer new_pos else ret true
  end.
(** buffered_writer.cc:80-97 PushSlow(); 82: the kMaxPosition of BufferedWriter is the largest Position *)
Definition PushSlow (min_length recommended_length : Z) : M bool :=
  w <- get;
  assert (available w <? min_length);;
  synced <- SyncBuffer;
  if negb synced then ret false
  else
    w <- get;
    if negb (ok w) then ret false
    else if u64 (2 ^ 64 - 1 - w_start_pos w) <? min_length then Fail
    else
      length <- of_option (ws_BufferLength (w_sizer w) (w_start_pos w) min_length recommended_length);
      modify (set_buf [] 0 (Z.min length (u64 (2 ^ 64 - 1 - w_start_pos w))));; ret true.
(** writer.h:619-629 *)
Definition Push (min_length recommended_length : Z) : M bool :=
  w <- get;
  if min_length <=? available w then ret true
  else
    result <- PushSlow min_length recommended_length; w <- get;
    if negb result then ret false else assert (min_length <=? available w);; ret true.
(** Storing bytes at the cursor and moving it, as memcpy() and move_cursor() do *)
Definition put (data : list Z) : M unit :=
  w <- get;
  assert ((zlen data <=? available w) && (w_cur w <=? zlen (w_buf w)));;
  modify (set_buf (ztake (w_cur w) (w_buf w) ++ data ++ zdrop (w_cur w + zlen data) (w_buf w)) (w_cur w + zlen data) (w_lim w)).
(** writer.cc:182-196: the body of the loop, and the rest *)
Fixpoint write_slow_loop (fuel : nat) (src : list Z) : M bool :=
  match fuel with
  | O => fun _ => None
  | S fuel =>
    w <- get;
    let available_length := available w in
    put (ztake available_length src);;
    let src := zdrop available_length src in
    result <- PushSlow 1 (zlen src);
    if negb result then ret false
    else w <- get; if available w <? zlen src then write_slow_loop fuel src else put src;; ret true
  end.
(** buffered_writer.cc:132-144 WriteSlow(string_view), with writer.cc:182-186 *)
Definition WriteSlow (src : list Z) : M bool :=
  w <- get;
  assert (available w <? zlen src);;
  pos <- get_pos;
  length <- of_option (ws_BufferLength (w_sizer w) pos 0 0);
  if length <=? zlen src then
    synced <- SyncBuffer;
    if negb synced then ret false
    else w <- get; if negb (ok w) then ret false else WriteInternal src
  else write_slow_loop (S (S (List.length src))) src.
(** writer.h:660-668 Write(BytesRef) *)
Definition Write (src : list Z) : M bool :=
  w <- get;
  if zlen src <=? available w then put src;; ret true else WriteSlow src.
(** writer.h:653-658 Write(char) *)
Definition WriteChar (c : Z) : M bool := pushed <- Push 1 0; if negb pushed then ret false else put [c];; ret true.
(** writer.h:670-678 Write(ExternalRef), with writer.cc:198-203; kMaxBytesToCopy is 511 *)
Definition kMaxBytesToCopy : Z := 511.
Definition WriteExternal (src : list Z) : M bool :=
  w <- get;
  if (zlen src <=? available w) && (zlen src <=? kMaxBytesToCopy) then put src;; ret true
  else assert (Z.min (available w) kMaxBytesToCopy <? zlen src);; Write src.
(** the loops in writer.cc:209-212, 227-234 and buffered_writer.cc:150-152 *)
Fixpoint write_fragments (fragments : list (list Z)) : M bool :=
  match fragments with
  | [] => ret true
  | fragment :: fragments => result <- Write fragment; if negb result then ret false else write_fragments fragments
  end.
(** writer.cc:80-142 Write(const Chain&), Write(const Cord&), 205-243 WriteSlow(): a Chain or Cord is the list of its blocks *)
Definition WriteChain (src : list (list Z)) : M bool :=
  w <- get;
  if (zlen (concat src) <=? available w) && (zlen (concat src) <=? kMaxBytesToCopy) then put (concat src);; ret true
  else assert (Z.min (available w) kMaxBytesToCopy <? zlen (concat src));; write_fragments src.
(** buffered_writer.cc:146-154 *)
Definition WriteSlowFill (n fill : Z) : M bool :=
  blocks <- of_option (iterate_blocks (make_blocks n fill)); write_fragments blocks.
(** buffered_writer.cc:189-196 *)
Definition end_run : M unit :=
  w <- get; s <- of_option (ws_EndRun (w_start_pos w + Z.max (w_cur w) (w_written w)) (w_sizer w)); modify (set_sizer s).
Definition begin_run : M unit := modify (fun w => set_sizer (ws_BeginRun (w_start_pos w) (w_sizer w)) w).
Definition Size : M (option Z) :=
  end_run;;
  synced <- SyncBuffer;
  if negb synced then ret None
  else size <- SizeBehindBuffer; match size with None => ret None | Some s => begin_run;; ret (Some s) end.
(** writer.h:680-690 Write(ByteFill), fd_writer.cc:517-548 WriteSlow(ByteFill) *)
Definition WriteFill (n fill : Z) : M bool :=
  w <- get;
  if (n <=? available w) && (n <=? kMaxBytesToCopy) then put (repeat fill (Z.to_nat n));; ret true
  else
    assert (Z.min (available w) kMaxBytesToCopy <? n);;
    random <- (if negb (fill =? 0) then ret false else SupportsRandomAccess);
    if negb random then WriteSlowFill n fill
    else
      size <- Size;
      match size with
      | None => ret false
      | Some size =>
        w <- get;
        assert (w_lim w =? 0);;
        if u64 (kMaxFdPosition - w_start_pos w) <? n then Fail
        else
          let new_pos := w_start_pos w + n in
          if new_pos <? size then WriteSlowFill n fill
          else
            cut <- (if w_start_pos w <? size then TruncateInternal (w_start_pos w) else ret true);
            if negb cut then ret false
            else extended <- TruncateInternal new_pos; if negb extended then ret false else SeekInternal new_pos
      end.
(** buffered_writer.cc:156-168, fd_writer.cc:550-572; [machine] is FlushType::kFromMachine *)
Definition Flush (machine : bool) : M bool :=
  end_run;;
  d <- take_buffer; let '(src, new_pos) := d in
  flushed <- FlushBehindBuffer src;
  if negb flushed then ret false
  else
    w <- get;
    result <- (if w_start_pos w =? new_pos then ret true else SeekBehindBuffer new_pos);
    begin_run;;
    if negb result then ret false
    else if machine then synced <- syscall sys_other; if negb synced then Fail else ret true else ret true.
(** writer.h:749-753 Seek(), buffered_writer.cc:170-187 SeekSlow() *)
Definition Seek (new_pos : Z) : M bool :=
  pos <- get_pos;
  if new_pos =? pos then ret true
  else
    random <- SupportsRandomAccess; w <- get;
    if random && (w_start_pos w <=? new_pos) && (new_pos <=? w_start_pos w + Z.max (w_cur w) (w_written w)) then
      modify (set_written (Z.max (w_cur w) (w_written w)));;
      assert ((0 <=? new_pos - w_start_pos w) && (new_pos - w_start_pos w <=? w_lim w));;
      modify (set_buf (w_buf w) (new_pos - w_start_pos w) (w_lim w));; ret true
    else
      end_run;;
      synced <- SyncBuffer;
      if negb synced then ret false
      else result <- SeekBehindBuffer new_pos; begin_run;; ret result.
(** buffered_writer.cc:198-204 *)
Definition Truncate (new_size : Z) : M bool :=
  end_run;;
  synced <- SyncBuffer;
  if negb synced then ret false
  else result <- TruncateBehindBuffer new_size; begin_run;; ret result.
(** buffered_writer.cc:75-78 *)
Definition SetWriteSizeHint (hint : option Z) : M unit :=
  pos <- get_pos; modify (fun w => set_sizer (ws_set_write_size_hint pos hint (w_sizer w)) w).
(** object.cc:90-94 Close(), fd_writer.h:813-822, fd_writer.cc:246-247, buffered_writer.cc:38-57, writer.h:607-610: Done() *)
Definition Close : M bool :=
  w <- get;
  if negb (w_open w) then ret (negb (w_failed w))
  else
    d <- take_buffer; let '(src, new_pos) := d in
    FlushBehindBuffer src;;
    w <- get;
    (if negb (w_start_pos w =? new_pos) && ok w then SeekBehindBuffer new_pos else ret true);;
    pos <- get_pos;
    modify (set_start_pos pos);; modify (set_buf [] 0 0);;
    w <- get;
    (if w_owning w then closed <- syscall sys_other; if negb closed then Fail else ret true else ret true);;
    w <- get;
    modify (set_state (w_failed w) false);; ret (negb (w_failed w)).

(** fd_writer.cc:89-244 InitializePos(), for a file descriptor which is open; 104-116 and the options about reading are left out *)
Definition new_writer (f : fd) (options : BufferOptions) (assumed_pos independent_pos : option Z) (owning : bool) : writer :=
  let sizer := new_write_sizer options in
  let w := {| w_fd := f; w_failed := false; w_open := true; w_start_pos := 0; w_buf := []; w_cur := 0; w_lim := 0; w_written := 0;
              w_sizer := sizer; w_independent := false; w_random := None; w_owning := owning |} in
  let begin_run w := set_sizer (ws_BeginRun (w_start_pos w) (w_sizer w)) w in
  let make pos independent random := begin_run
    {| w_fd := f; w_failed := false; w_open := true; w_start_pos := pos; w_buf := []; w_cur := 0; w_lim := 0; w_written := 0;
       w_sizer := sizer; w_independent := independent; w_random := random; w_owning := owning |} in
  match assumed_pos, independent_pos with
  | Some _, Some _ => set_state true true w
  | Some pos, None => if kMaxFdPosition <? pos then set_state true true w else make pos false (Some false)
  | None, Some pos =>
    if f_append f then set_state true true w
    else if kMaxFdPosition <? pos then set_state true true w
    else make pos true (Some true)
  | None, None =>
    match (if f_append f then let '(b, f) := sys_seek_end f in (if b then Some (f_pos f) else None, f) else sys_tell f) with
    | (None, f) => set_fd f (set_random false w)
    | (Some file_pos, f) => set_fd f (make file_pos false (if f_append f then Some false else None))
    end
  end.

(** The functions of the interface; Push() is followed by storing not more than [min_length] bytes *)
Inductive call :=
  | CWrite (src : list Z) | CWriteChar (c : Z) | CWriteExternal (src : list Z) | CWriteChain (src : list (list Z)) | CWriteFill (n fill : Z)
  | CPush (min_length recommended_length : Z) (src : list Z) | CFlush (machine : bool) | CSeek (new_pos : Z) | CSize | CTruncate (new_size : Z)
  | CSetWriteSizeHint (hint : option Z) | CSupportsRandomAccess | CFail | CClose.
Inductive result := RBool (b : bool) | RSize (s : option Z) | RUnit.
Definition exec (c : call) : M result :=
  match c with
  | CWrite src => b <- Write src; ret (RBool b)
  | CWriteChar x => b <- WriteChar x; ret (RBool b)
  | CWriteExternal src => b <- WriteExternal src; ret (RBool b)
  | CWriteChain src => b <- WriteChain src; ret (RBool b)
  | CWriteFill n fill => b <- WriteFill n fill; ret (RBool b)
  | CPush min_length recommended_length src =>
    pushed <- Push min_length recommended_length; if negb pushed then ret (RBool false) else put src;; ret (RBool true)
  | CFlush machine => b <- Flush machine; ret (RBool b)
  | CSeek new_pos => b <- Seek new_pos; ret (RBool b)
  | CSize => s <- Size; ret (RSize s)
  | CTruncate new_size => b <- Truncate new_size; ret (RBool b)
  | CSetWriteSizeHint hint => SetWriteSizeHint hint;; ret RUnit
  | CSupportsRandomAccess => b <- SupportsRandomAccess; ret (RBool b)
  | CFail => b <- Fail; ret (RBool b)
  | CClose => b <- Close; ret (RBool b)
  end.
Fixpoint run (calls : list call) : M (list result) :=
  match calls with [] => ret [] | c :: calls => r <- exec c; rs <- run calls; ret (r :: rs) end.
