(** What a Reader is for: a byte string with a cursor.

    [shift] is the difference between the place in the file and the position which the reader reports (it is not 0 if the user has told the
    reader to assume some position, or if the position of the file descriptor could not be obtained). *)
From Verif Require Import Base.Bytes Model.BufferSizer.
From Verif Require Import Model.BufferedReader.
Import BufferedWriter(fd, f_content, f_pos, f_calls, kMaxFdPosition).

(** The [n] bytes of the file from position [pos] *)
Definition piece (content : list Z) (shift pos n : Z) : list Z := zslice (pos + shift) n content.
(** The position of the end of the file *)
Definition size (content : list Z) (shift : Z) : Z := zlen content - shift.

(** Reading [data]: they are the bytes at the position, which is moved after them. *)
Definition reads (content : list Z) (shift : Z) (data : list Z) (pos pos' : Z) : Prop :=
  data = piece content shift pos (zlen data) /\ pos' = pos + zlen data.

(** What a call may return and do to the position and to the state, if the source supports [random] access. *)
Definition allowed (content : list Z) (shift : Z) (random independent : bool) (c : call) (pos : Z) (ok : bool) (o : observation) : Prop :=
  let pos' := o_pos o in
  let ok' := o_ok o in
  (ok' = true -> ok = true) /\
  (** the position stays in the file *)
  0 <= pos' + shift <= zlen content /\
  match c, o_result o with
  | CPull min_length _, RBool b =>
    (** the position does not change; whether there are that many bytes *)
    pos' = pos /\ if b then pos + min_length <= size content shift else ok' = true -> size content shift < pos + min_length
  | CRead n, RBytes b data | CReadView n, RBytes b data | CReadChain n, RBytes b data =>
    (** all bytes, or fewer if the file ends or on a failure *)
    reads content shift data pos pos' /\ if b then zlen data = n else zlen data < n /\ (ok' = true -> pos' = size content shift)
  | CReadByte, RBytes b data =>
    reads content shift data pos pos' /\ if b then zlen data = 1 else zlen data = 0 /\ (ok' = true -> pos' = size content shift)
  | CReadSome n, RBytes b data | CReadSomeView n, RBytes b data | CReadSomeChain n, RBytes b data =>
    (** some bytes, or none if the file ends or on a failure *)
    reads content shift data pos pos' /\
    if b then zlen data <= n /\ (0 < n -> 0 < zlen data) else zlen data = 0 /\ (ok' = true -> pos' = size content shift)
  | CReadHint _ _, RUnit | CSetReadAllHint _, RUnit => pos' = pos
  | CSync, RBool b =>
    b = ok' /\ (ok' = true -> pos' = pos) /\
    (** the position of the file descriptor becomes the position of the reader *)
    (b = true -> random = true -> independent = false -> o_fd_pos o = pos')
  | CSeek p, RBool b =>
    if b then pos' = p /\ p <= size content shift else ok' = true -> size content shift < p /\ pos' = size content shift
  | CSkip n, RSkip b n' =>
    (if b then n' = n /\ pos' = pos + n /\ pos + n <= size content shift
     else ok' = true -> size content shift < pos + n /\ pos' = size content shift /\ n' = pos' - pos)
  | CSize, RSize s => pos' = pos /\ match s with Some n => n = size content shift /\ ok' = true | None => ok' = false end
  | CVerifyEnd, RUnit => pos' = pos /\ (ok' = true -> pos = size content shift)
  | CClose, RBool b =>
    ok' = false /\
    (** the position of the file descriptor becomes the position of the reader *)
    (ok = true -> b = true -> pos' = pos /\ (random = true -> independent = false -> o_fd_pos o = pos'))
  | _, _ => False
  end.
(** Calls which may fail even if no system call fails *)
Definition may_fail (content : list Z) (shift : Z) (random : bool) (c : call) (pos : Z) : Prop :=
  match c with
  | CSeek p => random = false /\ p < pos
  | CSize => random = false
  | CVerifyEnd => pos <> size content shift
  | _ => False
  end.
(** The reader has not failed; Close() tells that by its result *)
Definition not_failed (c : call) (o : observation) : Prop := match c with CClose => o_result o = RBool true | _ => o_ok o = true end.
(** All calls of a history; [reliable] means that no system call fails *)
Fixpoint history (content : list Z) (shift : Z) (random independent : bool) (reliable : Prop) (calls : list call) (pos : Z) (ok : bool) (os : list observation) : Prop :=
  match calls, os with
  | [], [] => True
  | c :: calls, o :: os =>
    allowed content shift random independent c pos ok o /\
    (reliable -> ok = true -> ~ may_fail content shift random c pos -> not_failed c o) /\
    history content shift random independent reliable calls (o_pos o) (o_ok o) os
  | _, _ => False
  end.

(** The arguments of calls: sizes and positions are 64 bit *)
Definition call_ok (c : call) : Prop :=
  match c with
  | CPull m n | CReadHint m n => 0 <= m <= 2 ^ 63 /\ 0 <= n < 2 ^ 64
  | CReadView n => 0 <= n <= 2 ^ 63
  | CRead n | CReadChain n | CReadSome n | CReadSomeView n | CReadSomeChain n | CSeek n | CSkip n => 0 <= n < 2 ^ 64
  | _ => True
  end.
Definition option_ok (o : option Z) : Prop := match o with Some p => 0 <= p < 2 ^ 64 | None => True end.
(** Where in the file reading starts *)
Definition file_pos (f : fd) (independent_pos : option Z) : Z := match independent_pos with Some p => p | None => f_pos f end.
(** A file descriptor: the file is not longer than what the system supports, and reading starts not beyond its end. *)
Definition fd_ok (f : fd) (independent_pos : option Z) : Prop :=
  zlen (f_content f) <= kMaxFdPosition /\ 0 <= f_pos f /\ 0 <= file_pos f independent_pos <= zlen (f_content f).
Definition options_valid (o : BufferOptions) : Prop := 0 <= min_buffer_size o <= 2 ^ 31 /\ 0 < max_buffer_size o <= 2 ^ 31.
(** No system call fails, although read() may read less than asked for. *)
Definition calls_succeed (f : fd) : Prop := Forall (fun n => 0 < n) (f_calls f).
(** The position which a reader reports *)
Definition pos (r : reader) : Z := r_limit_pos r - available r.
(** The bytes which a call has read *)
Definition data_of (o : observation) : list Z := match o_result o with RBytes _ data => data | _ => [] end.
(** Calls which do not move the position otherwise than by reading *)
Definition is_read (c : call) : bool :=
  match c with CPull _ _ | CRead _ | CReadView _ | CReadByte | CReadChain _ | CReadSome _ | CReadSomeView _ | CReadSomeChain _ | CReadHint _ _ | CSetReadAllHint _ => true | _ => false end.
(** Calls which cannot fail, if there is random access and no system call fails, and whose result is not left to the implementation *)
Definition is_plain (c : call) : bool := match c with CReadSome _ | CReadSomeView _ | CReadSomeChain _ | CVerifyEnd | CClose => false | _ => true end.
