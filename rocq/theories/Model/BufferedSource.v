(** A Reader as seen by code which works directly on its buffer: riegeli/bytes/reader.h:101-176.

    How much data beyond the current position is in the buffer is up to the implementation of the Reader: here an arbitrary
    sequence of numbers tells how much each Pull() which has to read more makes available (at least what was requested, at most
    what there is).  After its data the source either ends or fails ([s_fails]).
    Simplification: if Pull() returns [false] then all remaining data is in the buffer (this is what the Readers of riegeli do;
    the contract only says that less than the requested amount is available). *)
From Verif Require Import Base.Bytes.

Record source := {
  s_rest : list Z;    (* the data from cursor() on *)
  s_avail : Z;        (* available() *)
  s_ok : bool;        (* ok() *)
  s_fails : bool;     (* whether the source fails, instead of ending, after the data *)
  s_pulls : list Z    (* how much will be made available by consecutive Pull() calls *)
}.
(** A Reader of [data], before any reading *)
Definition source_of (data : list Z) (fails : bool) (pulls : list Z) : source :=
  {| s_rest := data; s_avail := 0; s_ok := true; s_fails := fails; s_pulls := pulls |}.
(** The data between cursor() and limit() *)
Definition buffer (s : source) : list Z := ztake (s_avail s) (s_rest s).

(** reader.h:116, 696-705 *)
Definition Pull (min_length : Z) (s : source) : bool * source :=
  if min_length <=? s_avail s then (true, s)
  else if zlen (s_rest s) <? min_length then
    (false, {| s_rest := s_rest s; s_avail := zlen (s_rest s); s_ok := s_ok s && negb (s_fails s); s_fails := s_fails s; s_pulls := s_pulls s |})
  else
    (true, {| s_rest := s_rest s; s_avail := Z.max min_length (Z.min (zlen (s_rest s)) (hd 0 (s_pulls s))); s_ok := s_ok s;
              s_fails := s_fails s; s_pulls := tl (s_pulls s) |}).
(** reader.h:707-711 (and set_cursor() within the buffer): [None] is a violated precondition. *)
Definition move_cursor (length : Z) (s : source) : option source :=
  if (0 <=? length) && (length <=? s_avail s) then
    Some {| s_rest := zdrop length (s_rest s); s_avail := s_avail s - length; s_ok := s_ok s; s_fails := s_fails s; s_pulls := s_pulls s |}
  else None.
(** [src.cursor()[i]]: [None] is an access out of the buffer. *)
Definition cursor_at (i : Z) (s : source) : option Z :=
  if (0 <=? i) && (i <? s_avail s) then nth_error (s_rest s) (Z.to_nat i) else None.
(** object.cc:98-106 Fail() *)
Definition src_fail (s : source) : source :=
  {| s_rest := s_rest s; s_avail := s_avail s; s_ok := false; s_fails := s_fails s; s_pulls := s_pulls s |}.
(** memchr(src.cursor() + from, c, src.available() - from): the offset from cursor(); [from <= available()] is required. *)
Fixpoint index_of_byte (c : Z) (l : list Z) : option Z :=
  match l with
  | [] => None
  | x :: l' => if x =? c then Some 0 else option_map (Z.add 1) (index_of_byte c l')
  end.
Definition memchr_from (from : Z) (c : Z) (s : source) : option (option Z) :=
  if (0 <=? from) && (from <=? s_avail s) then Some (option_map (Z.add from) (index_of_byte c (zdrop from (buffer s)))) else None.

(** 'LF', 'CR', UTF-8 BOM *)
Definition LF : Z := 10.
Definition CR : Z := 13.
(** newline.h:48 *)
Definition kUtf8Bom : list Z := [0xef; 0xbb; 0xbf].
