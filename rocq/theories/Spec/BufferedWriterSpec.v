(** What a Writer is for: a file with a cursor.

    The state is the content which the file will have once everything is flushed, and the position which the writer reports.  [shift] is the
    difference between the place in the file and the position which the writer reports (it is not 0 if the user has told the writer to assume
    some position, or if the position of the file descriptor could not be obtained). *)
From Verif Require Import Base.Bytes Spec.PosixFile Model.BufferSizer Model.BufferedWriter.

(** The bytes which a call writes *)
Definition bytes_of (c : call) : option (list Z) :=
  match c with
  | CWrite src | CWriteExternal src | CPush _ _ src => Some src
  | CWriteChar x => Some [x]
  | CWriteChain src => Some (concat src)
  | CWriteFill n fill => Some (repeat fill (Z.to_nat n))
  | _ => None
  end.
Fixpoint all_bytes (calls : list call) : list Z :=
  match calls with [] => [] | c :: calls => match bytes_of c with Some d => d | None => [] end ++ all_bytes calls end.

(** What a call which does not fail does and returns *)
Definition step (shift : Z) (c : call) (r : result) (v v' : list Z * Z) : Prop :=
  let '(content, pos) := v in
  match c with
  | CWrite src | CWriteExternal src | CPush _ _ src => r = RBool true /\ v' = (write_at content (pos + shift) src, pos + zlen src)
  | CWriteChar x => r = RBool true /\ v' = (write_at content (pos + shift) [x], pos + 1)
  | CWriteChain src => r = RBool true /\ v' = (write_at content (pos + shift) (concat src), pos + zlen (concat src))
  | CWriteFill n fill => r = RBool true /\ v' = (write_at content (pos + shift) (repeat fill (Z.to_nat n)), pos + n)
  | CFlush _ => r = RBool true /\ v' = v
  | CSeek new_pos =>
    if (new_pos =? pos) || (new_pos <=? zlen content) then r = RBool true /\ v' = (content, new_pos) else r = RBool false /\ v' = (content, zlen content)
  | CSize => r = RSize (Some (zlen content)) /\ v' = v
  | CTruncate new_size =>
    if new_size <=? zlen content then r = RBool true /\ v' = (ztake new_size content, new_size) else r = RBool false /\ v' = (content, zlen content)
  | CSetWriteSizeHint _ => r = RUnit /\ v' = v
  | CSupportsRandomAccess => (exists b, r = RBool b) /\ v' = v
  | CFail | CClose => False
  end.
Fixpoint steps (shift : Z) (calls : list call) (rs : list result) (v v' : list Z * Z) : Prop :=
  match calls, rs with
  | [], [] => v' = v
  | c :: calls, r :: rs => exists v1, step shift c r v v1 /\ steps shift calls rs v1 v'
  | _, _ => False
  end.

(** The arguments of calls: sizes and positions are 64 bit; not more than what Push() was asked for is stored. *)
Definition call_ok (c : call) : Prop :=
  match c with
  | CWriteFill n _ => 0 <= n < 2 ^ 64
  | CPush min_length recommended_length src => 0 <= min_length <= 2 ^ 63 /\ 0 <= recommended_length /\ zlen src <= min_length
  | CSeek p | CTruncate p => 0 <= p < 2 ^ 64
  | _ => True
  end.
Definition moves_cursor (c : call) : bool := match c with CSeek _ | CTruncate _ => true | _ => false end.
Definition truncates (c : call) : bool := match c with CTruncate _ => true | _ => false end.
(** A file descriptor: positions and sizes are within what the system supports. *)
Definition fd_ok (f : fd) : Prop := 0 <= f_pos f <= kMaxFdPosition /\ zlen (f_content f) <= kMaxFdPosition.
Definition option_ok (o : option Z) : Prop := match o with Some p => 0 <= p < 2 ^ 64 | None => True end.
(** Where in the file the first byte goes *)
Definition file_pos (f : fd) (independent_pos : option Z) : Z :=
  match independent_pos with Some p => p | None => if f_append f then zlen (f_content f) else f_pos f end.
(** The position which a writer reports *)
Definition pos (w : writer) : Z := w_start_pos w + w_cur w.
(** Seek() is called only when it is known whether random access is supported ([known]: SupportsRandomAccess() or Size() was called before),
    and not after Fail() was called by the user. *)
Fixpoint careful (known failed : bool) (calls : list call) : Prop :=
  match calls with
  | [] => True
  | c :: calls =>
    match c with CSeek _ => known = true /\ failed = false | _ => True end /\
    careful (known || match c with CSupportsRandomAccess | CSize => true | _ => false end) (failed || match c with CFail => true | _ => false end) calls
  end.
(** Buffer sizes which the options can have *)
Definition options_valid (o : BufferOptions) : Prop := 0 <= min_buffer_size o <= 2 ^ 31 /\ 0 < max_buffer_size o <= 2 ^ 31.
(** No system call fails, although write() may write less than it was given. *)
Definition calls_succeed (f : fd) : Prop := Forall (fun n => 0 < n) (f_calls f).
