(** What a LimitingWriter is for: a file with a cursor which accepts bytes below the limit. *)
From Verif Require Import Base.Bytes Spec.PosixFile Model.BufferedWriter.
From Verif Require Spec.BufferedWriterSpec Model.LimitingWriter.
Import BufferedWriterSpec(bytes_of, call_ok).
Import LimitingWriter(limiter, l_dest, lok, l_start_pos, l_cur, kMaxPosition, limit_option, NoLimit, MaxPos, MaxLength, lcall, LWriter, LFlushFromObject, LSetMaxPos, LSetMaxLength, LClearLimit,
  lexec).

(** What is observed after a call: its result, pos() and ok() of the LimitingWriter, ok() and pos() of the original writer, the content of the file, and, if the
    original writer can be successfully closed, the content of the file and pos() after that. *)
Record observation := { q_result : result; q_pos : Z; q_ok : bool; q_dest_ok : bool; q_dest_pos : Z; q_file : list Z; q_closed : option (list Z * Z) }.
Definition closing (w : writer) : option (list Z * Z) :=
  match Close w with Some (true, w') => Some (f_content (w_fd w'), BufferedWriterSpec.pos w') | _ => None end.
Definition observe (r : result) (l : limiter) : observation :=
  {| q_result := r; q_pos := l_start_pos l + l_cur l; q_ok := lok l; q_dest_ok := ok (l_dest l); q_dest_pos := BufferedWriterSpec.pos (l_dest l);
     q_file := f_content (w_fd (l_dest l)); q_closed := closing (l_dest l) |}.
(** The observations of a history of calls, until an assertion fails *)
Fixpoint observe_run (calls : list lcall) (l : limiter) : list observation :=
  match calls with
  | [] => []
  | c :: calls => match lexec c l with Some (r, l') => observe r l' :: observe_run calls l' | None => [] end
  end.

(** The state: the content and the position which the original writer has or will have; the bytes beyond the limit which have been accepted to the
    buffer, and which will make the writer fail unless the limit is increased before; the limit; the greatest position so far; whether it is open and has not failed.
    [a_known]: the limit was never decreased below the greatest position, and the original writer has not failed. *)
Record state := { a_content : list Z; a_pos : Z; a_excess : list Z; a_limit : Z; a_high : Z; a_ok : bool; a_known : bool }.
Definition end_pos (s : state) : Z := a_pos s + zlen (a_excess s).
(** The limit was exceeded: bytes beyond the limit are dropped. *)
Definition exceeded (s : state) : state :=
  {| a_content := a_content s; a_pos := a_pos s; a_excess := []; a_limit := a_limit s; a_high := a_high s; a_ok := false; a_known := a_known s |}.

Section S.
  Variables (shift : Z) (exact owning random : bool).
  (** Bytes are given to the original writer up to the limit. *)
  Definition accept (d : list Z) (limit : Z) (s : state) : state :=
    let data := a_excess s ++ d in
    let taken := ztake (limit - a_pos s) data in
    let pos := a_pos s + zlen taken in
    {| a_content := write_at (a_content s) (a_pos s + shift) taken; a_pos := pos; a_excess := zdrop (limit - a_pos s) data; a_limit := limit;
       a_high := Z.max (a_high s) pos; a_ok := a_ok s; a_known := a_known s |}.
  Definition move (content : list Z) (pos : Z) (s : state) : state :=
    {| a_content := content; a_pos := pos; a_excess := []; a_limit := a_limit s; a_high := Z.max (a_high s) pos; a_ok := a_ok s; a_known := a_known s |}.
  Definition set_limit (limit : Z) (s : state) (s' : state) : Prop :=
    if a_high s <=? limit then s' = accept [] limit s else a_known s' = false /\ (a_ok s' = true -> a_ok s = true).
  (** The call writes what is in the buffer: if that exceeds the limit then the writer fails. *)
  Definition synced (r_failed : result) (s : state) (r : result) (s' : state) (P : Prop) : Prop :=
    match a_excess s with [] => P | _ => r = r_failed /\ s' = exceeded s end.

  (** What a call on a good writer does if the original writer does not fail *)
  Definition lstep (c : lcall) (s : state) (r : result) (s' : state) : Prop :=
    match c with
    | LWriter c =>
      match bytes_of c with
      | Some d =>
        let s1 := accept d (a_limit s) s in
        (r = RBool true /\ s' = s1) \/ (a_excess s1 <> [] /\ r = RBool false /\ s' = exceeded s1)
      | None =>
        match c with
        | CFlush _ => synced (RBool false) s r s' (r = RBool true /\ s' = s)
        | CSeek p =>
          if p =? end_pos s then r = RBool true /\ s' = s
          else
            (** the position is not moved beyond the limit, nor beyond the end *)
            synced (RBool false) s r s'
              (let q := Z.min p (a_limit s) in
               if (q <=? a_pos s) || (q <=? zlen (a_content s)) then r = RBool (q =? p) /\ s' = move (a_content s) q s
               else r = RBool false /\ s' = move (a_content s) (zlen (a_content s)) s)
        | CSize => synced (RSize None) s r s' (r = RSize (Some (zlen (a_content s))) /\ s' = s)
        | CTruncate n =>
          (** bytes beyond the limit are forgotten if they would be removed anyway; the writer fails if then the position is beyond the limit *)
          if (a_limit s <? n) && negb (zlen (a_excess s) =? 0) then r = RBool false /\ s' = exceeded s
          else
            let '(b, s1) :=
              if (n <? a_pos s) || (n <=? zlen (a_content s)) then (true, move (set_size (a_content s) n) n s) else (false, move (a_content s) (zlen (a_content s)) s) in
            r = RBool b /\ s' = if a_limit s <? a_pos s1 then exceeded s1 else s1
        | CSetWriteSizeHint _ => if owning && negb exact then synced RUnit s r s' (r = RUnit /\ s' = s) else r = RUnit /\ s' = s
        | CSupportsRandomAccess => (exists b, r = RBool b) /\ s' = s
        | CFail => r = RBool false /\ s' = exceeded s
        | CClose =>
          (** fails if the limit was exceeded, or with exact() if it was not reached *)
          s' = exceeded s /\ r = RBool ((zlen (a_excess s) =? 0) && negb (exact && (a_pos s <? a_limit s)))
        | _ => False
        end
      end
    | LFlushFromObject => synced (RBool false) s r s' (r = RBool true /\ s' = s)
    | LSetMaxPos p => r = RUnit /\ set_limit p s s'
    | LSetMaxLength n =>
      r = RUnit /\
      if kMaxPosition <? end_pos s + n then
        (** fails if the limit would be beyond what a position can be and must be reached *)
        if exact then s' = exceeded s else set_limit kMaxPosition s s'
      else set_limit (end_pos s + n) s s'
    | LClearLimit => r = RUnit /\ set_limit kMaxPosition s s'
    end.

  (** Positions stay in the range which files support. *)
  Definition bytes (c : lcall) : list Z := match c with LWriter c => match bytes_of c with Some d => d | None => [] end | _ => [] end.
  Definition room (c : lcall) (s : state) : Prop := end_pos s + zlen (bytes c) + Z.max 0 shift <= kMaxFdPosition.
  (** Calls which need random access *)
  Definition may_fail (c : lcall) (s : state) : Prop := match c with LWriter (CSeek p) => p <> end_pos s /\ random = false | LWriter CSize => random = false | _ => False end.
  Definition flushes (c : lcall) : bool := match c with LWriter (CFlush _) => true | LFlushFromObject => owning | _ => false end.
  (** Calls which fail only because of the limit, if the original writer does not fail *)
  Definition limited (c : lcall) : bool :=
    match c with LWriter (CFail | CTruncate _ | CClose) | LSetMaxPos _ | LSetMaxLength _ | LClearLimit => false | _ => true end.
  (** What is observed after a call *)
  Definition observed (reliable : Prop) (c : lcall) (s s' : state) (o : observation) : Prop :=
    (q_ok o = true -> q_pos o = end_pos s' /\ (flushes c = true -> q_file o = a_content s' /\ q_dest_pos o = a_pos s')) /\
    (** when it has failed or was closed, the original writer has everything up to the limit and nothing beyond *)
    (q_ok o = false -> (forall v, q_closed o = Some v -> v = (a_content s', a_pos s')) /\ (reliable -> q_closed o = Some (a_content s', a_pos s')) /\
                       (limited c = true -> q_pos o = a_limit s)).
  (** [reliable] means that no system call fails. *)
  Definition call_spec (reliable : Prop) (c : lcall) (s : state) (file : list Z) (o : observation) (s' : state) : Prop :=
    (q_ok o = true -> a_ok s = true) /\ a_ok s' = q_ok o /\ (a_known s' = true -> a_known s = true) /\
    (a_known s = true ->
      if a_ok s then
        (lstep c s (q_result o) s' /\ (a_known s' = true -> observed (reliable /\ room c s) c s s' o)) \/
        (** the original writer has failed *)
        ((q_result o = RBool false \/ q_result o = RSize None) /\ q_ok o = false /\ q_closed o = None /\ ~ (reliable /\ room c s /\ ~ may_fail c s))
      else
        (** nothing happens *)
        s' = s /\ (c <> LWriter CClose -> q_file o = file) /\ (bytes c <> [] -> q_result o = RBool false) /\ (flushes c = true -> q_result o = RBool false) /\
        (forall v, q_closed o = Some v -> v = (a_content s, a_pos s)) /\ (reliable -> q_closed o = Some (a_content s, a_pos s))).
  (** What is required of the user: Truncate() only if positions are those in the file.
      Besides that: SetWriteSizeHint() is not called on a writer which has failed (see the theorem C37_hint_after_failure_refuted). *)
  Definition required (c : lcall) (s : state) : Prop :=
    match c with
    | LWriter (CTruncate _) => shift = 0
    | LWriter (CSetWriteSizeHint _) => owning && negb exact = true -> a_ok s = true
    | _ => True
    end.
  (** All calls of a history, as long as requirements are met *)
  Fixpoint lhistory (reliable : Prop) (calls : list lcall) (s : state) (file : list Z) (os : list observation) : Prop :=
    match calls with
    | [] => os = []
    | c :: calls =>
      required c s ->
      match os with
      | [] => False
      | o :: os => exists s', call_spec reliable c s file o s' /\ lhistory (reliable /\ room c s) calls s' (q_file o) os
      end
    end.
End S.

(** The limit which the options ask for *)
Definition wanted (pos : Z) (o : limit_option) : Z := match o with NoLimit => kMaxPosition | MaxPos p => p | MaxLength n => pos + n end.
(** A newly created LimitingWriter *)
Definition initial (content : list Z) (pos : Z) (o : limit_option) (exact ok : bool) : state :=
  let limit := Z.min (wanted pos o) kMaxPosition in
  {| a_content := content; a_pos := pos; a_excess := []; a_limit := limit; a_high := pos; a_ok := ok; a_known := pos <=? limit |}.
Definition lcall_ok (c : lcall) : Prop :=
  match c with
  | LWriter c => call_ok c
  | LSetMaxPos p => 0 <= p < 2 ^ 64
  | LSetMaxLength n => 0 <= n < 2 ^ 64
  | _ => True
  end.
Definition limit_option_ok (o : limit_option) : Prop := match o with NoLimit => True | MaxPos p => 0 <= p < 2 ^ 64 | MaxLength n => 0 <= n < 2 ^ 64 end.
(** Calls of the original writer before the LimitingWriter is created *)
Definition sequential (c : call) : bool := match c with CSeek _ | CTruncate _ | CFail | CClose => false | _ => true end.
(** Sequential writing *)
Definition plain (c : lcall) : bool :=
  match c with LWriter c => match bytes_of c with Some _ => true | None => match c with CFlush _ => true | _ => false end end | LFlushFromObject => true | _ => false end.
Definition all_written (calls : list lcall) : list Z := concat (map bytes calls).
Definition succeeded (o : observation) : bool := match q_result o with RBool b => b | _ => false end.
