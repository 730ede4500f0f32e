(** Model of riegeli/bytes/{limiting_reader.h,limiting_reader.cc}: LimitingReader and ScopedLimiter, over the buffered reader from a file
    descriptor (Model/BufferedReader.v) as the original Reader, with the functions of riegeli/bytes/{reader.h,reader.cc} which it inherits.

    [None] is a failed RIEGELI_ASSERT or an access outside of the buffer.  Simplifications: the text of statuses is not modelled; Copy(), NewReader() and
    moving the LimitingReader are not modelled. *)
From Verif Require Import Base.Bytes Model.BufferSizer.
From Verif Require Model.BufferedReader.
Import BufferedReader(reader, r_buf, r_cur, r_limit_pos, call, CPull, CRead, CReadView, CReadByte, CReadChain, CReadSome, CReadSomeView, CReadSomeChain,
  CReadHint, CSetReadAllHint, CSync, CSeek, CSkip, CSize, CVerifyEnd, CClose, result, RBool, RBytes, RSkip, RSize, RUnit, kMaxBytesToCopy).

(** limiting_reader.h:260 *)
Definition kMaxPosition : Z := 2 ^ 64 - 1.
(** limiting_reader.h:443-447: what a ScopedLimiter remembers *)
Record scope := { s_old_max_pos : Z; s_old_exact : bool; s_fail_if_longer : bool }.
(** reader.h: start_, cursor_, limit_, as offsets from the start of the buffer of the original reader; limit_pos_.
    limiting_reader.h:282-292: max_pos_, exact_, fail_if_longer_, and whether the original reader is owned.
    [l_scopes]: the ScopedLimiters which are alive, the innermost first. *)
Record limiter := {
  l_src : reader; l_failed : bool; l_open : bool; l_limit_pos : Z; l_start : Z; l_cur : Z; l_limit : Z; l_max_pos : Z; l_exact : bool; l_fail_if_longer : bool;
  l_owning : bool; l_scopes : list scope }.
Definition lok (l : limiter) : bool := l_open l && negb (l_failed l).
Definition lavailable (l : limiter) : Z := l_limit l - l_cur l.
Definition set_src (r : reader) (l : limiter) : limiter :=
  {| l_src := r; l_failed := l_failed l; l_open := l_open l; l_limit_pos := l_limit_pos l; l_start := l_start l; l_cur := l_cur l; l_limit := l_limit l; l_max_pos := l_max_pos l;
     l_exact := l_exact l; l_fail_if_longer := l_fail_if_longer l; l_owning := l_owning l; l_scopes := l_scopes l |}.
Definition set_lstate (failed opened : bool) (l : limiter) : limiter :=
  {| l_src := l_src l; l_failed := failed; l_open := opened; l_limit_pos := l_limit_pos l; l_start := l_start l; l_cur := l_cur l; l_limit := l_limit l; l_max_pos := l_max_pos l;
     l_exact := l_exact l; l_fail_if_longer := l_fail_if_longer l; l_owning := l_owning l; l_scopes := l_scopes l |}.
Definition set_buffer (start cur limit limit_pos : Z) (l : limiter) : limiter :=
  {| l_src := l_src l; l_failed := l_failed l; l_open := l_open l; l_limit_pos := limit_pos; l_start := start; l_cur := cur; l_limit := limit; l_max_pos := l_max_pos l;
     l_exact := l_exact l; l_fail_if_longer := l_fail_if_longer l; l_owning := l_owning l; l_scopes := l_scopes l |}.
Definition set_max (max_pos : Z) (l : limiter) : limiter :=
  {| l_src := l_src l; l_failed := l_failed l; l_open := l_open l; l_limit_pos := l_limit_pos l; l_start := l_start l; l_cur := l_cur l; l_limit := l_limit l; l_max_pos := max_pos;
     l_exact := l_exact l; l_fail_if_longer := l_fail_if_longer l; l_owning := l_owning l; l_scopes := l_scopes l |}.
Definition set_options (exact longer : bool) (scopes : list scope) (l : limiter) : limiter :=
  {| l_src := l_src l; l_failed := l_failed l; l_open := l_open l; l_limit_pos := l_limit_pos l; l_start := l_start l; l_cur := l_cur l; l_limit := l_limit l; l_max_pos := l_max_pos l;
     l_exact := exact; l_fail_if_longer := longer; l_owning := l_owning l; l_scopes := scopes |}.

Definition L (A : Type) : Type := limiter -> option (A * limiter).
Definition ret {A} (a : A) : L A := fun l => Some (a, l).
Definition bind {A B} (m : L A) (f : A -> L B) : L B := fun l => match m l with Some (a, l') => f a l' | None => None end.
Definition get : L limiter := fun l => Some (l, l).
Definition modify (f : limiter -> limiter) : L unit := fun l => Some (tt, f l).
Definition assert (b : bool) : L unit := fun l => if b then Some (tt, l) else None.
(** A call of a function of the original reader *)
Definition on_src {A} (m : BufferedReader.M A) : L A := fun l => match m (l_src l) with Some (a, r) => Some (a, set_src r l) | None => None end.
Notation "x <- m ; k" := (bind m (fun x => k)) (at level 60, m at level 58, right associativity).
Notation "m ;; k" := (bind m (fun _ => k)) (at level 60, right associativity).

(** reader.h:799-809 pos(), start_pos(), with the assertion of the invariant *)
Definition get_lpos : L Z := l <- get; assert (l_limit l - l_start l <=? l_limit_pos l);; ret (l_limit_pos l - lavailable l).
Definition get_start_lpos : L Z := l <- get; assert (l_limit l - l_start l <=? l_limit_pos l);; ret (l_limit_pos l - (l_limit l - l_start l)).
(** limiting_reader.h:643-645, with the assertion of reader.h set_cursor() *)
Definition SyncBuffer : L unit :=
  l <- get;
  assert ((0 <=? l_cur l) && (l_cur l <=? zlen (r_buf (l_src l))));;
  modify (set_src (BufferedReader.set_buf (r_buf (l_src l)) (l_cur l) (l_src l))).
(** limiting_reader.cc:52-61; IntCast() asserts that the size is not negative, and set_buffer() that the cursor is not beyond the limit *)
Definition MakeBufferSlow : L unit :=
  pos <- get_lpos; l <- get;
  if l_max_pos l <? pos then modify (set_buffer (l_cur l) (l_cur l) (l_cur l) (l_max_pos l))
  else
    let limit := l_limit l - (l_limit_pos l - l_max_pos l) in
    assert ((0 <=? l_limit_pos l - l_max_pos l) && (l_cur l <=? limit));;
    modify (set_buffer (l_start l) (l_cur l) limit (l_max_pos l)).
(** limiting_reader.h:647-652 *)
Definition MakeBuffer : L unit :=
  l <- get;
  modify (set_buffer 0 (r_cur (l_src l)) (zlen (r_buf (l_src l))) (r_limit_pos (l_src l)));;
  l <- get;
  (if l_max_pos l <? l_limit_pos l then MakeBufferSlow else ret tt);;
  l <- get;
  if BufferedReader.ok (l_src l) then ret tt else modify (set_lstate true (l_open l)).
(** object.cc:98-106 Fail(), limiting_reader.cc:119-128 AnnotateStatusImpl() *)
Definition Fail : L bool :=
  l <- get;
  if l_failed l then ret false
  else modify (set_lstate true (l_open l));; (if l_open l then SyncBuffer;; MakeBuffer else ret tt);; ret false.
(** limiting_reader.cc:78-89 *)
Definition CheckEnough : L bool := l <- get; if l_exact l then Fail else ret false.
(** reader.h:707-711 move_cursor(), and copying bytes from the cursor *)
Definition take (length : Z) : L (list Z) :=
  l <- get;
  assert ((0 <=? length) && (length <=? lavailable l));;
  modify (set_buffer (l_start l) (l_cur l + length) (l_limit l) (l_limit_pos l));; ret (zslice (l_cur l) length (r_buf (l_src l))).

(** limiting_reader.cc:130-145 *)
Definition PullSlow (min_length recommended_length : Z) : L bool :=
  pos <- get_lpos; l <- get;
  assert ((lavailable l <? min_length) && (pos <=? l_max_pos l));;
  if negb (lok l) then ret false
  else
    SyncBuffer;;
    let min_length_to_pull := Z.min min_length (l_max_pos l - pos) in
    pull_ok <- on_src (BufferedReader.Pull min_length_to_pull recommended_length);
    MakeBuffer;;
    if negb pull_ok then CheckEnough else ret (min_length_to_pull =? min_length).
(** reader.h:696-705 *)
Definition Pull (min_length recommended_length : Z) : L bool :=
  l <- get;
  if min_length <=? lavailable l then ret true
  else
    result <- PullSlow min_length recommended_length; l <- get;
    if negb result then ret false else assert (min_length <=? lavailable l);; ret true.
(** limiting_reader.cc:147-162 ReadSlow(char* ), and with [chain] 164-197 ReadSlow(Chain), ReadSlow(Cord), ReadInternal(): they differ only
    in the function of the original reader and in the precondition *)
Definition ReadSlow (chain : bool) (length : Z) : L (bool * list Z) :=
  pos <- get_lpos; l <- get;
  assert (if chain then Z.min (lavailable l) kMaxBytesToCopy <? length else lavailable l <? length);;
  assert (pos <=? l_max_pos l);;
  if negb (lok l) then ret (false, [])
  else
    SyncBuffer;;
    let length_to_read := Z.min length (l_max_pos l - pos) in
    rd <- on_src (if chain then BufferedReader.ReadChain length_to_read else BufferedReader.Read length_to_read);
    MakeBuffer;;
    if negb (fst rd) then b <- CheckEnough; ret (b, snd rd) else ret (length_to_read =? length, snd rd).
(** reader.cc:361-420, 441-464: the assertions about the position *)
Definition check_read (length : Z) (m : L (bool * list Z)) : L (bool * list Z) :=
  pos_before <- get_lpos;
  rd <- m;
  pos <- get_lpos;
  assert ((pos_before <=? pos) && (pos - pos_before <=? length));;
  assert (negb (fst rd) || (pos - pos_before =? length));;
  assert (zlen (snd rd) =? pos - pos_before);;
  ret rd.
(** reader.h:754-763 Read(char* ), reader.cc:70-81, 107-124 Read(string), ReadAndAppend(string) *)
Definition Read (length : Z) : L (bool * list Z) :=
  l <- get;
  if length <=? lavailable l then data <- take length; ret (true, data) else check_read length (ReadSlow false length).
(** reader.h:744-752 Read(string_view) *)
Definition ReadView (length : Z) : L (bool * list Z) :=
  pulled <- Pull length 0; l <- get;
  data <- take (if pulled : bool then length else lavailable l); ret (pulled, data).
(** reader.h:730-735 ReadByte() *)
Definition ReadByte : L (bool * list Z) :=
  pulled <- Pull 1 0; if negb pulled then ret (false, []) else data <- take 1; ret (true, data).
(** reader.cc:83-105, 126-158 Read(Chain), Read(Cord), ReadAndAppend(Chain), ReadAndAppend(Cord) *)
Definition ReadChain (length : Z) : L (bool * list Z) :=
  l <- get;
  if (length <=? lavailable l) && (length <=? kMaxBytesToCopy) then data <- take length; ret (true, data)
  else check_read length (ReadSlow true length).
(** limiting_reader.cc:244-262 *)
Definition ReadSomeSlow (max_length : Z) : L (bool * list Z) :=
  pos <- get_lpos; l <- get;
  assert ((0 <? max_length) && (lavailable l =? 0) && (pos <=? l_max_pos l));;
  if negb (lok l) then ret (false, [])
  else
    SyncBuffer;;
    let max_length := Z.min max_length (l_max_pos l - pos) in
    rd <- on_src (BufferedReader.ReadSome max_length);
    MakeBuffer;;
    if negb (fst rd) then b <- CheckEnough; ret (b, snd rd) else ret (0 <? max_length, snd rd).
(** reader.cc:592-614: the assertions about the position *)
Definition check_read_some (max_length : Z) (m : L (bool * list Z)) : L (bool * list Z) :=
  pos_before <- get_lpos;
  rd <- m;
  pos <- get_lpos;
  assert ((pos_before <=? pos) && (pos - pos_before <=? max_length));;
  assert (if fst rd : bool then 0 <? pos - pos_before else pos - pos_before =? 0);;
  assert (zlen (snd rd) =? pos - pos_before);;
  ret rd.
(** reader.h:776-790 ReadSome(char* ), reader.cc:180-195, 240-262 ReadSome(string), ReadAndAppendSome(string) *)
Definition ReadSome (max_length : Z) : L (bool * list Z) :=
  l <- get;
  if (0 <? lavailable l) || (max_length =? 0) then data <- take (Z.min max_length (lavailable l)); ret (true, data)
  else check_read_some max_length (ReadSomeSlow max_length).
(** reader.h:765-774 ReadSome(string_view) *)
Definition ReadSomeView (max_length : Z) : L (bool * list Z) :=
  pulled <- (if max_length =? 0 then ret true else Pull 1 max_length); l <- get;
  data <- take (Z.min max_length (lavailable l)); ret (pulled, data).
(** reader.cc:197-238, 264-318 ReadSome(Chain), ReadSome(Cord), ReadAndAppendSome(Chain), ReadAndAppendSome(Cord), 667-682, 712-727 *)
Definition ReadSomeChain (max_length : Z) : L (bool * list Z) :=
  l <- get;
  if (0 <? lavailable l) || (max_length =? 0) then
    let max_length := Z.min max_length (lavailable l) in
    if max_length <=? kMaxBytesToCopy then data <- take max_length; ret (true, data) else check_read max_length (ReadSlow true max_length)
  else
    check_read_some max_length
      (l <- get;
       assert ((0 <? max_length) && (lavailable l =? 0));;
       pulled <- PullSlow 1 max_length; l <- get;
       if negb pulled then ret (false, []) else ReadChain (Z.min max_length (lavailable l))).
(** reader.h:792-795, limiting_reader.cc:287-302 *)
Definition ReadHint (min_length recommended_length : Z) : L unit :=
  l <- get;
  if min_length <=? lavailable l then ret tt
  else
    pos <- get_lpos;
    assert (pos <=? l_max_pos l);;
    if negb (lok l) then ret tt
    else
      SyncBuffer;;
      let remaining := l_max_pos l - pos in
      on_src (BufferedReader.ReadHint (Z.min min_length remaining) (Z.min recommended_length remaining));;
      MakeBuffer.
(** limiting_reader.h:705-714; [from_object] is SyncType::kFromObject *)
Definition Sync (from_object : bool) : L bool :=
  l <- get;
  if negb (lok l) then ret false
  else
    SyncBuffer;;
    sync_ok <- (if negb from_object || l_owning l then on_src BufferedReader.Sync else ret true);
    MakeBuffer;; ret sync_ok.
(** limiting_reader.cc:319-334 *)
Definition SeekSlow (new_pos : Z) : L bool :=
  pos <- get_lpos; start <- get_start_lpos; l <- get;
  assert (((new_pos <? start) || (l_limit_pos l <? new_pos)) && (pos <=? l_max_pos l));;
  if negb (lok l) then ret false
  else
    SyncBuffer;;
    let pos_to_seek := Z.min new_pos (l_max_pos l) in
    seek_ok <- on_src (BufferedReader.Seek pos_to_seek);
    MakeBuffer;;
    if negb seek_ok then CheckEnough else ret (pos_to_seek =? new_pos).
(** reader.h:822-828 *)
Definition Seek (new_pos : Z) : L bool :=
  start <- get_start_lpos; l <- get;
  if (start <=? new_pos) && (new_pos <=? l_limit_pos l) then
    modify (set_buffer (l_start l) (l_limit l - (l_limit_pos l - new_pos)) (l_limit l) (l_limit_pos l));; ret true
  else SeekSlow new_pos.
(** reader.h:830-865, with length_skipped *)
Definition Skip (length : Z) : L (bool * Z) :=
  l <- get;
  if length <=? lavailable l then take length;; ret (true, length)
  else
    pos_before <- get_lpos;
    seek_ok <- (if 2 ^ 64 - 1 - pos_before <? length then SeekSlow (2 ^ 64 - 1);; ret false else SeekSlow (pos_before + length));
    pos <- get_lpos;
    assert (pos <=? pos_before + length);;
    if negb seek_ok then ret (false, SaturatingSub pos pos_before)
    else assert (pos =? pos_before + length);; ret (true, length).
(** limiting_reader.cc:342-354 *)
Definition Size : L (option Z) :=
  pos <- get_lpos; l <- get;
  assert (pos <=? l_max_pos l);;
  if negb (lok l) then ret None
  else if l_exact l then ret (Some (l_max_pos l))
  else
    SyncBuffer;;
    size <- on_src BufferedReader.Size;
    MakeBuffer;;
    ret (match size with None => None | Some size => Some (Z.min size (l_max_pos l)) end).
(** limiting_reader.cc:336-340 *)
Definition SupportsSize (l : limiter) : bool := l_exact l || BufferedReader.SupportsSize (l_src l).
(** reader.cc:47-59 *)
Definition VerifyEnd : L unit :=
  pulled <- Pull 1 0;
  if negb pulled then ret tt
  else l <- get; (if SupportsSize l then Size;; get_lpos;; ret tt else ret tt);; Fail;; ret tt.
(** limiting_reader.cc:63-76, reader.h:680-683: LimitingReaderBase::Done(), Reader::Done() *)
Definition DoneBase : L unit :=
  l <- get;
  (if lok l then
     SyncBuffer;;
     pos <- get_lpos;
     if l_fail_if_longer l && (pos =? l_max_pos l) then
       pulled <- on_src (BufferedReader.Pull 1 0);
       if pulled : bool then modify (fun l => set_lstate true (l_open l) l) else ret tt
     else ret tt
   else ret tt);;
  pos <- get_lpos;
  modify (set_buffer 0 0 0 pos).
(** object.cc:90-94 Close(), limiting_reader.h:695-703 LimitingReader::Done() *)
Definition Close : L bool :=
  l <- get;
  if negb (l_open l) then ret (negb (l_failed l))
  else
    DoneBase;;
    (if l_owning l then closed <- on_src BufferedReader.Close; if negb closed then modify (fun l => set_lstate true (l_open l) l) else ret tt else ret tt);;
    l <- get;
    modify (set_lstate (l_failed l) false);; ret (negb (l_failed l)).

(** limiting_reader.h:623-626 *)
Definition set_max_pos (max_pos : Z) : L unit :=
  modify (set_max max_pos);; l <- get; if max_pos <? l_limit_pos l then MakeBufferSlow else ret tt.
(** limiting_reader.h:628-641 *)
Definition set_max_length (max_length : Z) : L unit :=
  pos <- get_lpos; l <- get;
  let max_pos := u64 (pos + max_length) in
  if max_pos <? max_length then
    modify (set_max kMaxPosition);; if l_exact l then Fail;; ret tt else ret tt
  else
    modify (set_max max_pos);;
    if max_pos <? l_limit_pos l then
      let limit := l_limit l - (l_limit_pos l - max_pos) in
      assert (l_cur l <=? limit);;
      modify (set_buffer (l_start l) (l_cur l) limit max_pos)
    else ret tt.
(** limiting_reader.h:183, 197, 209 *)
Definition clear_limit : L unit := modify (set_max kMaxPosition).
Definition set_exact (exact : bool) : L unit := modify (fun l => set_options exact (l_fail_if_longer l) (l_scopes l) l).
Definition set_fail_if_longer (longer : bool) : L unit := modify (fun l => set_options (l_exact l) longer (l_scopes l) l).
(** limiting_reader.h:49-150 Options: at most one of max_pos and max_length is set *)
Inductive limit_option := NoLimit | MaxPos (p : Z) | MaxLength (n : Z).
(** limiting_reader.h:717-743 ScopedLimiter::ScopedLimiter() *)
Definition ScopedLimiter (limit : limit_option) (exact longer : bool) : L unit :=
  l <- get;
  let scope := {| s_old_max_pos := l_max_pos l; s_old_exact := l_exact l; s_fail_if_longer := longer |} in
  (match limit with
   | MaxPos p => if l_max_pos l <? p then (if exact then Fail;; ret tt else ret tt) else set_max_pos p
   | MaxLength n =>
     (** max_length() *)
     pos <- get_lpos;
     assert (pos <=? l_max_pos l);;
     if l_max_pos l - pos <? n then (if exact then Fail;; ret tt else ret tt) else set_max_length n
   | NoLimit => if (l_max_pos l <? kMaxPosition) && exact then Fail;; ret tt else ret tt
   end);;
  modify (fun l => set_options true (l_fail_if_longer l) (scope :: l_scopes l) l).
(** limiting_reader.h:745-758 ~ScopedLimiter(), 609-614 restore_max_pos() *)
Definition EndScopedLimiter : L unit :=
  l <- get;
  match l_scopes l with
  | [] => fun _ => None
  | scope :: scopes =>
    assert (l_max_pos l <=? s_old_max_pos scope);;
    let inner_max_pos := l_max_pos l in
    modify (set_max (s_old_max_pos scope));;
    modify (set_options (s_old_exact scope) (l_fail_if_longer l) scopes);;
    if s_fail_if_longer scope then
      pos <- get_lpos;
      if pos =? inner_max_pos then pulled <- Pull 1 0; if pulled : bool then Fail;; ret tt else ret tt else ret tt
    else ret tt
  end.
(** limiting_reader.cc:39-50, limiting_reader.h:674-680: LimitingReader::LimitingReader() *)
Definition new_limiter (src : reader) (limit : limit_option) (exact longer owning : bool) : option limiter :=
  option_map snd
    ((l <- get;
      modify (set_buffer 0 (r_cur src) (zlen (r_buf src)) (r_limit_pos src));;
      (if BufferedReader.ok src then ret tt else modify (set_lstate true true));;
      match limit with NoLimit => ret tt | MaxPos p => set_max_pos p | MaxLength n => set_max_length n end)
       {| l_src := src; l_failed := false; l_open := true; l_limit_pos := 0; l_start := 0; l_cur := 0; l_limit := 0; l_max_pos := kMaxPosition; l_exact := exact;
          l_fail_if_longer := longer; l_owning := owning; l_scopes := [] |}).

(** The functions of the interface *)
Inductive lcall :=
  | LReader (c : call) | LSyncFromObject
  | LSetMaxPos (p : Z) | LSetMaxLength (n : Z) | LClearLimit | LSetExact (b : bool) | LSetFailIfLonger (b : bool)
  | LScope (limit : limit_option) (exact longer : bool) | LEndScope.
Definition lexec (c : lcall) : L result :=
  let bytes (m : L (bool * list Z)) := rd <- m; ret (RBytes (fst rd) (snd rd)) in
  let unit (m : L unit) := m;; ret RUnit in
  match c with
  | LReader (CPull min_length recommended_length) => b <- Pull min_length recommended_length; ret (RBool b)
  | LReader (CRead length) => bytes (Read length)
  | LReader (CReadView length) => bytes (ReadView length)
  | LReader CReadByte => bytes ReadByte
  | LReader (CReadChain length) => bytes (ReadChain length)
  | LReader (CReadSome max_length) => bytes (ReadSome max_length)
  | LReader (CReadSomeView max_length) => bytes (ReadSomeView max_length)
  | LReader (CReadSomeChain max_length) => bytes (ReadSomeChain max_length)
  | LReader (CReadHint min_length recommended_length) => unit (ReadHint min_length recommended_length)
  (** reader.h: SetReadAllHintImpl() does nothing by default *)
  | LReader (CSetReadAllHint _) => ret RUnit
  | LReader CSync => b <- Sync false; ret (RBool b)
  | LReader (CSeek new_pos) => b <- Seek new_pos; ret (RBool b)
  | LReader (CSkip length) => s <- Skip length; ret (RSkip (fst s) (snd s))
  | LReader CSize => s <- Size; ret (RSize s)
  | LReader CVerifyEnd => unit VerifyEnd
  | LReader CClose => b <- Close; ret (RBool b)
  | LSyncFromObject => b <- Sync true; ret (RBool b)
  | LSetMaxPos p => unit (set_max_pos p)
  | LSetMaxLength n => unit (set_max_length n)
  | LClearLimit => unit clear_limit
  | LSetExact b => unit (set_exact b)
  | LSetFailIfLonger b => unit (set_fail_if_longer b)
  | LScope limit exact longer => unit (ScopedLimiter limit exact longer)
  | LEndScope => unit EndScopedLimiter
  end.
(** A history of calls, up to the first failed assertion: after each call pos(), ok(), max_pos(), exact(), the position of the original reader and
    the position of the file descriptor are observed *)
Record lobservation := { q_result : result; q_pos : Z; q_ok : bool; q_max_pos : Z; q_exact : bool; q_src_pos : Z; q_src_ok : bool; q_fd_pos : Z }.
Definition lobserve (x : result) : L lobservation :=
  pos <- get_lpos; l <- get; src_pos <- on_src BufferedReader.get_pos;
  ret {| q_result := x; q_pos := pos; q_ok := lok l; q_max_pos := l_max_pos l; q_exact := l_exact l; q_src_pos := src_pos; q_src_ok := BufferedReader.ok (l_src l);
         q_fd_pos := BufferedWriter.f_pos (BufferedReader.r_fd (l_src l)) |}.
Fixpoint lrun (calls : list lcall) (l : limiter) : list lobservation :=
  match calls with
  | [] => []
  | c :: calls => match (x <- lexec c; lobserve x) l with Some (o, l') => o :: lrun calls l' | None => [] end
  end.
