(** Model of riegeli/bytes/{limiting_writer.h,limiting_writer.cc}: LimitingWriter, over the buffered writer to a file descriptor
    (Model/BufferedWriter.v) as the original Writer, with the functions of riegeli/bytes/{writer.h,writer.cc} which it inherits.

    [None] is a failed RIEGELI_ASSERT or an access outside of the buffer.  Simplifications: the text of statuses is not modelled; ReadMode() and moving the
    LimitingWriter are not modelled; a Chain or Cord is the list of its blocks, and RemoveSuffix() leaves the other blocks as they are. *)
From Verif Require Import Base.Bytes Model.BufferSizer.
From Verif Require Model.BufferedWriter.
Import BufferedWriter(writer, w_fd, w_buf, w_cur, w_lim, w_start_pos, set_buf, call, CWrite, CWriteChar, CWriteExternal, CWriteChain, CWriteFill, CPush, CFlush, CSeek, CSize,
  CTruncate, CSetWriteSizeHint, CSupportsRandomAccess, CFail, CClose, result, RBool, RSize, RUnit, kMaxBytesToCopy).

(** limiting_writer.h:198 *)
Definition kMaxPosition : Z := 2 ^ 64 - 1.
(** writer.h: start_, cursor_, limit_ and start_pos_; limiting_writer.h:208-211: max_pos_, exact_, and whether the original writer is owned.
    [l_null]: start_, cursor_ and limit_ are null; otherwise start_ is that of the original writer, and [l_cur], [l_lim] are cursor_ and limit_ relative to it.
    Thus bytes are stored in the buffer of the original writer. *)
Record limiter := {
  l_dest : writer; l_failed : bool; l_open : bool; l_start_pos : Z; l_null : bool; l_cur : Z; l_lim : Z; l_max_pos : Z; l_exact : bool; l_owning : bool }.
Definition lok (l : limiter) : bool := l_open l && negb (l_failed l).
Definition lavailable (l : limiter) : Z := l_lim l - l_cur l.
Definition set_dest (w : writer) (l : limiter) : limiter :=
  {| l_dest := w; l_failed := l_failed l; l_open := l_open l; l_start_pos := l_start_pos l; l_null := l_null l; l_cur := l_cur l; l_lim := l_lim l; l_max_pos := l_max_pos l;
     l_exact := l_exact l; l_owning := l_owning l |}.
Definition set_lstate (failed opened : bool) (l : limiter) : limiter :=
  {| l_dest := l_dest l; l_failed := failed; l_open := opened; l_start_pos := l_start_pos l; l_null := l_null l; l_cur := l_cur l; l_lim := l_lim l; l_max_pos := l_max_pos l;
     l_exact := l_exact l; l_owning := l_owning l |}.
Definition set_buffer (null : bool) (start_pos cur lim : Z) (l : limiter) : limiter :=
  {| l_dest := l_dest l; l_failed := l_failed l; l_open := l_open l; l_start_pos := start_pos; l_null := null; l_cur := cur; l_lim := lim; l_max_pos := l_max_pos l;
     l_exact := l_exact l; l_owning := l_owning l |}.
Definition set_max (max_pos : Z) (l : limiter) : limiter :=
  {| l_dest := l_dest l; l_failed := l_failed l; l_open := l_open l; l_start_pos := l_start_pos l; l_null := l_null l; l_cur := l_cur l; l_lim := l_lim l; l_max_pos := max_pos;
     l_exact := l_exact l; l_owning := l_owning l |}.

Definition L (A : Type) : Type := limiter -> option (A * limiter).
Definition ret {A} (a : A) : L A := fun l => Some (a, l).
Definition bind {A B} (m : L A) (f : A -> L B) : L B := fun l => match m l with Some (a, l') => f a l' | None => None end.
Definition get : L limiter := fun l => Some (l, l).
Definition modify (f : limiter -> limiter) : L unit := fun l => Some (tt, f l).
Definition assert (b : bool) : L unit := fun l => if b then Some (tt, l) else None.
(** A call of a function of the original writer *)
Definition on_dest {A} (m : BufferedWriter.M A) : L A := fun l => match m (l_dest l) with Some (a, w) => Some (a, set_dest w l) | None => None end.
Notation "x <- m ; k" := (bind m (fun x => k)) (at level 60, m at level 58, right associativity).
Notation "m ;; k" := (bind m (fun _ => k)) (at level 60, right associativity).

(** writer.h:736-741 pos(), with the assertion of the invariant *)
Definition get_lpos : L Z := l <- get; assert (l_start_pos l <=? 2 ^ 64 - 1 - l_lim l);; ret (l_start_pos l + l_cur l).
(** object.cc:120-130 FailWithoutAnnotation(), with writer.cc:69 OnFail(): set_buffer(start()) *)
Definition FailWithoutAnnotation : L bool :=
  l <- get;
  if l_failed l then ret false else modify (set_lstate true (l_open l));; modify (set_buffer (l_null l) (l_start_pos l) 0 0);; ret false.
(** writer.cc:71-74: AnnotateStatus() of the original writer uses its pos() *)
Definition annotate_dest : L unit := l <- get; if BufferedWriter.w_open (l_dest l) then on_dest BufferedWriter.get_pos;; ret tt else ret tt.
(** limiting_writer.cc:91-103 *)
Definition FailLimitExceeded : L bool :=
  l <- get; modify (set_buffer true (l_max_pos l) 0 0);; annotate_dest;; FailWithoutAnnotation.
(** writer.h:636-642 set_cursor() of the original writer, with its assertions; if the cursor is null then they hold only if the original writer has no buffer *)
Definition set_dest_cursor (cursor : Z) : L unit :=
  l <- get;
  assert (if l_null l then w_lim (l_dest l) =? 0 else (0 <=? cursor) && (cursor <=? w_lim (l_dest l)));;
  modify (set_dest (set_buf (w_buf (l_dest l)) cursor (w_lim (l_dest l)) (l_dest l))).
(** limiting_writer.h:311-318 *)
Definition SyncBuffer : L bool :=
  pos <- get_lpos; l <- get;
  if l_max_pos l <? pos then set_dest_cursor (l_cur l - (pos - l_max_pos l));; FailLimitExceeded
  else set_dest_cursor (l_cur l);; ret true.
(** limiting_writer.h:320-329; set_buffer(cursor()) in 324 is overwritten by FailLimitExceeded() *)
Definition MakeBuffer : L unit :=
  l <- get;
  modify (set_buffer false (w_start_pos (l_dest l)) (w_cur (l_dest l)) (w_lim (l_dest l)));;
  l <- get;
  (if l_max_pos l <? l_start_pos l then FailLimitExceeded;; ret tt else ret tt);;
  l <- get;
  if BufferedWriter.ok (l_dest l) then ret tt else FailWithoutAnnotation;; ret tt.
(** object.cc:98-106 Fail(), limiting_writer.cc:111-120 AnnotateStatusImpl() *)
Definition Fail : L bool :=
  l <- get;
  if l_failed l then ret false
  else
    modify (set_lstate true (l_open l));;
    (if l_open l then synced <- SyncBuffer; annotate_dest;; (if synced then MakeBuffer else ret tt) else ret tt);;
    l <- get; modify (set_buffer (l_null l) (l_start_pos l) 0 0);; ret false.

(** limiting_writer.cc:60-67 *)
Definition set_max_pos (max_pos : Z) : L unit :=
  modify (set_max max_pos);; l <- get; if max_pos <? l_start_pos l then FailLimitExceeded;; ret tt else ret tt.
(** limiting_writer.cc:69-76 *)
Definition set_max_length (max_length : Z) : L unit :=
  pos <- get_lpos; l <- get;
  if u64 (kMaxPosition - pos) <? max_length then (if l_exact l then Fail;; ret tt else ret tt);; modify (set_max kMaxPosition)
  else set_max_pos (u64 (pos + max_length)).
(** limiting_writer.h:153 *)
Definition clear_limit : L unit := modify (set_max kMaxPosition).

(** The assertion that the position of the start of the buffer does not exceed the limit, the check of ok(), SyncBuffer(), a call of a function of the
    original writer, MakeBuffer(): what most functions below do *)
Definition with_dest {A} (failed : A) (m : BufferedWriter.M A) : L A :=
  l <- get;
  assert (l_start_pos l <=? l_max_pos l);;
  if negb (lok l) then ret failed
  else
    synced <- SyncBuffer;
    if negb synced then ret failed else a <- on_dest m; MakeBuffer;; ret a.
(** limiting_writer.cc:122-136 *)
Definition PushSlow (min_length recommended_length : Z) : L bool :=
  l <- get;
  assert (lavailable l <? min_length);;
  with_dest false (BufferedWriter.Push min_length recommended_length).
(** limiting_writer.cc:203-224 WriteInternal(), 226-247 WriteSlow(ByteFill): [whole] writes everything to the original writer, [part n] writes the first
    [n] bytes *)
Definition WriteInternal (size : Z) (whole : BufferedWriter.M bool) (part : Z -> BufferedWriter.M bool) : L bool :=
  l <- get;
  assert (l_start_pos l <=? l_max_pos l);;
  if negb (lok l) then ret false
  else
    synced <- SyncBuffer;
    if negb synced then ret false
    else
      pos <- get_lpos; l <- get;
      let max_length := u64 (l_max_pos l - pos) in
      if size <=? max_length then b <- on_dest whole; MakeBuffer;; ret b
      else
        b <- on_dest (part max_length);
        if negb b then MakeBuffer;; ret false else FailLimitExceeded.
(** chain.cc RemoveSuffix(): the blocks up to the given size *)
Fixpoint take_blocks (n : Z) (blocks : list (list Z)) : list (list Z) :=
  match blocks with
  | [] => []
  | b :: blocks => if n <=? 0 then [] else if n <? zlen b then [ztake n b] else b :: take_blocks (n - zlen b) blocks
  end.
(** Storing bytes at the cursor and moving it, as memcpy() and move_cursor() do; the buffer is that of the original writer *)
Definition lput (data : list Z) : L unit :=
  l <- get;
  let buf := w_buf (l_dest l) in
  assert ((zlen data <=? lavailable l) && (l_cur l <=? zlen buf));;
  modify (set_dest (set_buf (ztake (l_cur l) buf ++ data ++ zdrop (l_cur l + zlen data) buf) (w_cur (l_dest l)) (w_lim (l_dest l)) (l_dest l)));;
  modify (set_buffer (l_null l) (l_start_pos l) (l_cur l + zlen data) (l_lim l)).
(** writer.h:619-629 *)
Definition Push (min_length recommended_length : Z) : L bool :=
  l <- get;
  if min_length <=? lavailable l then ret true
  else
    result <- PushSlow min_length recommended_length; l <- get;
    if negb result then ret false else assert (min_length <=? lavailable l);; ret true.
(** writer.h:660-668 Write(BytesRef), limiting_writer.cc:138-146 *)
Definition Write (src : list Z) : L bool :=
  l <- get;
  if zlen src <=? lavailable l then lput src;; ret true
  else WriteInternal (zlen src) (BufferedWriter.Write src) (fun n => BufferedWriter.Write (ztake n src)).
(** writer.h:653-658 Write(char) *)
Definition WriteChar (c : Z) : L bool := pushed <- Push 1 0; if negb pushed then ret false else lput [c];; ret true.
(** writer.h:670-678 Write(ExternalRef), limiting_writer.cc:148-157: the part is written as a Chain *)
Definition WriteExternal (src : list Z) : L bool :=
  l <- get;
  if (zlen src <=? lavailable l) && (zlen src <=? kMaxBytesToCopy) then lput src;; ret true
  else
    assert (Z.min (lavailable l) kMaxBytesToCopy <? zlen src);;
    WriteInternal (zlen src) (BufferedWriter.WriteExternal src) (fun n => BufferedWriter.WriteChain [ztake n src]).
(** writer.cc:80-142 Write(const Chain&), Write(const Cord&), limiting_writer.cc:159-201 *)
Definition WriteChain (src : list (list Z)) : L bool :=
  l <- get;
  if (zlen (concat src) <=? lavailable l) && (zlen (concat src) <=? kMaxBytesToCopy) then lput (concat src);; ret true
  else
    assert (Z.min (lavailable l) kMaxBytesToCopy <? zlen (concat src));;
    WriteInternal (zlen (concat src)) (BufferedWriter.WriteChain src) (fun n => BufferedWriter.WriteChain (take_blocks n src)).
(** writer.h:687-697 Write(ByteFill), limiting_writer.cc:226-247 *)
Definition WriteFill (n fill : Z) : L bool :=
  l <- get;
  if (n <=? lavailable l) && (n <=? kMaxBytesToCopy) then lput (repeat fill (Z.to_nat n));; ret true
  else
    assert (Z.min (lavailable l) kMaxBytesToCopy <? n);;
    WriteInternal n (BufferedWriter.WriteFill n fill) (fun m => BufferedWriter.WriteFill m fill).
(** writer.h:761-765 Seek(), limiting_writer.cc:254-268 SeekSlow() *)
Definition Seek (new_pos : Z) : L bool :=
  pos <- get_lpos; l <- get;
  if new_pos =? pos then ret true
  else
    let pos_to_seek := Z.min new_pos (l_max_pos l) in
    seek_ok <- with_dest false (BufferedWriter.Seek pos_to_seek); ret (seek_ok && (pos_to_seek =? new_pos)).
(** limiting_writer.cc:270-280 *)
Definition Size : L (option Z) := with_dest None BufferedWriter.Size.
(** limiting_writer.cc:287-300 *)
Definition Truncate (new_size : Z) : L bool :=
  l <- get;
  assert (l_start_pos l <=? l_max_pos l);;
  if negb (lok l) then ret false
  else
    pos <- get_lpos;
    (if (l_max_pos l <? pos) && (new_size <=? l_max_pos l) then
       (** set_cursor() of this writer, with its assertions *)
       let cursor := l_cur l - (pos - l_max_pos l) in
       assert ((0 <=? cursor) && (cursor <=? l_lim l));; modify (set_buffer (l_null l) (l_start_pos l) cursor (l_lim l))
     else ret tt);;
    with_dest false (BufferedWriter.Truncate new_size).
(** limiting_writer.h:399-409; [machine] is FlushType::kFromMachine; otherwise FlushType::kFromProcess *)
Definition Flush (machine : bool) : L bool := with_dest false (BufferedWriter.Flush machine).
(** limiting_writer.h:399-409 with FlushType::kFromObject, which flushes only an owned writer *)
Definition FlushFromObject : L bool :=
  l <- get; with_dest false (if l_owning l then BufferedWriter.Flush false else BufferedWriter.ret true).
(** limiting_writer.h:386-397; 150 max_length() *)
Definition SetWriteSizeHint (hint : option Z) : L unit :=
  l <- get;
  if l_owning l && negb (l_exact l) then
    synced <- SyncBuffer;
    if negb synced then ret tt
    else
      pos <- get_lpos;
      on_dest (BufferedWriter.SetWriteSizeHint (match hint with None => None | Some h => Some (Z.min h (Z.max 0 (l_max_pos l - pos))) end));;
      MakeBuffer
  else ret tt.
(** limiting_writer.cc:249-252 *)
Definition SupportsRandomAccess : L bool := on_dest BufferedWriter.SupportsRandomAccess.
(** object.cc:90-94 Close(), limiting_writer.h:376-384, limiting_writer.cc:78-89, writer.h:607-610: Done() *)
Definition Close : L bool :=
  l <- get;
  if negb (l_open l) then ret (negb (l_failed l))
  else
    (if lok l then SyncBuffer else ret true);;
    pos <- get_lpos; l <- get;
    (if l_exact l && (pos <? l_max_pos l) then annotate_dest;; FailWithoutAnnotation else ret true);;
    pos <- get_lpos;
    modify (set_buffer true pos 0 0);;
    (if l_owning l then closed <- on_dest BufferedWriter.Close; if negb closed then FailWithoutAnnotation else ret true else ret true);;
    l <- get;
    modify (set_lstate (l_failed l) false);; ret (negb (l_failed l)).

(** Options: the limit *)
Inductive limit_option := NoLimit | MaxPos (p : Z) | MaxLength (n : Z).
(** limiting_writer.cc:39-58 Initialize() *)
Definition Initialize (o : limit_option) : L unit :=
  l <- get;
  (if l_owning l && l_exact l then
     match o with
     | NoLimit => ret tt
     | MaxPos p => dest_pos <- on_dest BufferedWriter.get_pos; on_dest (BufferedWriter.SetWriteSizeHint (Some (Z.max 0 (p - dest_pos))))
     | MaxLength n => on_dest (BufferedWriter.SetWriteSizeHint (Some n))
     end
   else ret tt);;
  l <- get;
  modify (set_buffer false (w_start_pos (l_dest l)) (w_cur (l_dest l)) (w_lim (l_dest l)));;
  (if BufferedWriter.ok (l_dest l) then ret true else FailWithoutAnnotation);;
  match o with NoLimit => ret tt | MaxPos p => set_max_pos p | MaxLength n => set_max_length n end.
Definition new_limiter (w : writer) (o : limit_option) (exact owning : bool) : option limiter :=
  match Initialize o {| l_dest := w; l_failed := false; l_open := true; l_start_pos := 0; l_null := true; l_cur := 0; l_lim := 0; l_max_pos := kMaxPosition;
                        l_exact := exact; l_owning := owning |} with
  | Some (_, l) => Some l
  | None => None
  end.

(** The functions of the interface *)
Inductive lcall := LWriter (c : call) | LFlushFromObject | LSetMaxPos (max_pos : Z) | LSetMaxLength (max_length : Z) | LClearLimit.
Definition lexec (c : lcall) : L result :=
  match c with
  | LWriter (CWrite src) => b <- Write src; ret (RBool b)
  | LWriter (CWriteChar x) => b <- WriteChar x; ret (RBool b)
  | LWriter (CWriteExternal src) => b <- WriteExternal src; ret (RBool b)
  | LWriter (CWriteChain src) => b <- WriteChain src; ret (RBool b)
  | LWriter (CWriteFill n fill) => b <- WriteFill n fill; ret (RBool b)
  | LWriter (CPush min_length recommended_length src) =>
    pushed <- Push min_length recommended_length; if negb pushed then ret (RBool false) else lput src;; ret (RBool true)
  | LWriter (CFlush machine) => b <- Flush machine; ret (RBool b)
  | LWriter (CSeek new_pos) => b <- Seek new_pos; ret (RBool b)
  | LWriter CSize => s <- Size; ret (RSize s)
  | LWriter (CTruncate new_size) => b <- Truncate new_size; ret (RBool b)
  | LWriter (CSetWriteSizeHint hint) => SetWriteSizeHint hint;; ret RUnit
  | LWriter CSupportsRandomAccess => b <- SupportsRandomAccess; ret (RBool b)
  | LWriter CFail => b <- Fail; ret (RBool b)
  | LWriter CClose => b <- Close; ret (RBool b)
  | LFlushFromObject => b <- FlushFromObject; ret (RBool b)
  | LSetMaxPos p => set_max_pos p;; ret RUnit
  | LSetMaxLength n => set_max_length n;; ret RUnit
  | LClearLimit => clear_limit;; ret RUnit
  end.
Fixpoint lrun (calls : list lcall) : L (list result) :=
  match calls with [] => ret [] | c :: calls => r <- lexec c; rs <- lrun calls; ret (r :: rs) end.
