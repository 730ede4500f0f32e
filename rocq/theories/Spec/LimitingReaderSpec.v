(** What a LimitingReader is for: the byte string of the original reader with a cursor, ending at the limit. *)
From Verif Require Import Base.Bytes.
From Verif Require Import Model.BufferedReader Spec.BufferedReaderSpec.
From Verif Require Model.LimitingReader.
Import LimitingReader(kMaxPosition, limit_option, NoLimit, MaxPos, MaxLength, lcall, LReader, LSyncFromObject, LSetMaxPos, LSetMaxLength, LClearLimit, LSetExact, LSetFailIfLonger,
  LScope, LEndScope, lobservation, q_result, q_pos, q_ok, q_max_pos, q_exact, q_src_pos, q_src_ok, q_fd_pos).

(** The state which the user sees: the position; whether it is open and has not failed; the limit; the options; the scopes: the limit and exactness before
    each ScopedLimiter, and its fail_if_longer().
    [behind]: the limit has been set before the position of the original reader, which cannot be moved back just because of that: it may be still behind the limit. *)
Record state := { a_pos : Z; a_ok : bool; a_limit : Z; a_exact : bool; a_longer : bool; a_behind : bool; a_scopes : list (Z * bool * bool) }.

Section S.
  Variables (content : list Z) (shift : Z) (random independent owning : bool).
  Notation size := (size content shift).
  (** Where the limiting reader ends *)
  Definition ending (s : state) : Z := Z.min (a_limit s) size.
  (** The source has enough data: it is fine that it ends, because the limit was not reached with exact() *)
  Definition enough (s : state) : Prop := a_exact s = true -> a_limit s <= size.
  (** Data up to a position, unless it is beyond the limit, are in the source *)
  Definition has (s : state) (p : Z) : Prop := a_exact s = true -> Z.min p (a_limit s) <= size.

  (** Calls of functions of Reader, and what they leave unchanged *)
  Definition reader_call (c : call) (s : state) (o : lobservation) : Prop :=
    let pos := a_pos s in
    let pos' := q_pos o in
    let ok' := q_ok o in
    (ok' = true -> a_ok s = true) /\ q_max_pos o = a_limit s /\ q_exact o = a_exact s /\
    (** the position stays in the source and not beyond the limit *)
    pos' <= a_limit s /\ pos' <= size /\ (a_behind s = false -> 0 <= pos' + shift) /\
    match c, q_result o with
    | CPull n _, RBool b => pos' = pos /\ if b then pos + n <= ending s else ok' = true -> ending s < pos + n /\ enough s
    | CRead n, RBytes b data | CReadView n, RBytes b data | CReadChain n, RBytes b data =>
      reads content shift data pos pos' /\ if b then zlen data = n else zlen data < n /\ (ok' = true -> pos' = ending s /\ enough s)
    | CReadByte, RBytes b data =>
      reads content shift data pos pos' /\ if b then zlen data = 1 else zlen data = 0 /\ (ok' = true -> pos' = ending s /\ enough s)
    | CReadSome n, RBytes b data | CReadSomeView n, RBytes b data | CReadSomeChain n, RBytes b data =>
      reads content shift data pos pos' /\
      if b then zlen data <= n /\ (0 < n -> 0 < zlen data) else zlen data = 0 /\ (ok' = true -> pos' = ending s /\ enough s)
    | CReadHint _ _, RUnit | CSetReadAllHint _, RUnit => pos' = pos
    | CSync, RBool b =>
      b = ok' /\
      (ok' = true -> pos' = pos /\ (a_behind s = false -> q_src_pos o = pos' /\ (random = true -> independent = false -> q_fd_pos o = pos')))
    | CSeek p, RBool b => if b then pos' = p /\ p <= ending s else ok' = true -> ending s < p /\ pos' = ending s /\ enough s
    | CSkip n, RSkip b n' =>
      if b then n' = n /\ pos' = pos + n else ok' = true -> ending s < pos + n /\ pos' = ending s /\ n' = pos' - pos /\ enough s
    | CSize, RSize r => pos' = pos /\ match r with Some n => n = (if a_exact s then a_limit s else ending s) /\ ok' = true | None => ok' = false end
    | CVerifyEnd, RUnit => pos' = pos /\ (ok' = true -> pos = ending s /\ enough s)
    | CClose, RBool b =>
      ok' = false /\ pos' = pos /\
      (a_ok s = true -> b = true ->
        (** the original reader is left at the position *)
        (a_behind s = false -> q_src_pos o = pos /\ (owning = true -> random = true -> independent = false -> q_fd_pos o = pos)) /\
        (** it is not longer than required; if it has failed when checking that then, unless it is owned, only it tells that *)
        (a_behind s = false -> a_longer s = true -> pos = a_limit s -> size <= a_limit s \/ (owning = false /\ q_src_ok o = false)))
    | _, _ => False
    end.
  (** Calls which may fail even if no system call fails *)
  Definition may_fail_reader (c : call) (s : state) : Prop :=
    match c with
    | CPull n _ | CRead n | CReadView n | CReadChain n | CSkip n => ~ has s (a_pos s + n)
    | CReadByte => ~ has s (a_pos s + 1)
    | CReadSome n | CReadSomeView n | CReadSomeChain n => ~ has s (a_pos s + Z.min n 1)
    | CSeek p => ~ has s p \/ random = false /\ p < a_pos s
    | CSize => a_exact s = false /\ random = false
    | CVerifyEnd => a_pos s <> ending s \/ ~ enough s
    | CClose => a_longer s = true /\ a_pos s = a_limit s /\ a_limit s < size
    | _ => False
    end
    (** the original reader is moved back to the limit, or it is longer *)
    \/ (a_behind s = true /\ match c with CSkip _ | CSeek _ => random = false | CClose => a_longer s = true | _ => False end).

  (** The position and whether nothing has failed, after the limit and options are changed *)
  Definition options_call (c : lcall) (s : state) (s' : state) : Prop :=
    let '(pos, limit) := (a_pos s, a_limit s) in
    match c with
    | LSetMaxPos p =>
      s' = {| a_pos := Z.min pos p; a_ok := a_ok s; a_limit := p; a_exact := a_exact s; a_longer := a_longer s; a_behind := a_behind s || (p <? pos); a_scopes := a_scopes s |}
    | LSetMaxLength n =>
      (** fails if the limit would be beyond what a position can be and must be reached *)
      let limit' := Z.min (pos + n) kMaxPosition in
      s' = {| a_pos := pos; a_ok := a_ok s && negb (a_exact s && (kMaxPosition <? pos + n)); a_limit := limit'; a_exact := a_exact s; a_longer := a_longer s;
              a_behind := a_behind s; a_scopes := a_scopes s |}
    | LClearLimit => s' = {| a_pos := pos; a_ok := a_ok s; a_limit := kMaxPosition; a_exact := a_exact s; a_longer := a_longer s; a_behind := a_behind s; a_scopes := a_scopes s |}
    | LSetExact b => s' = {| a_pos := pos; a_ok := a_ok s; a_limit := limit; a_exact := b; a_longer := a_longer s; a_behind := a_behind s; a_scopes := a_scopes s |}
    | LSetFailIfLonger b => s' = {| a_pos := pos; a_ok := a_ok s; a_limit := limit; a_exact := a_exact s; a_longer := b; a_behind := a_behind s; a_scopes := a_scopes s |}
    | LScope o exact longer =>
      (** the limit can only decrease; fails if it must be reached and this is not possible; what follows is exact *)
      let wanted := match o with NoLimit => kMaxPosition | MaxPos p => p | MaxLength n => pos + n end in
      let limit' := Z.min limit wanted in
      s' = {| a_pos := Z.min pos limit'; a_ok := a_ok s && negb (exact && (limit <? wanted)); a_limit := limit'; a_exact := true; a_longer := a_longer s;
              a_behind := a_behind s || (limit' <? pos); a_scopes := (limit, a_exact s, longer) :: a_scopes s |}
    | LEndScope =>
      match a_scopes s with
      | [] => False
      | (old_limit, old_exact, longer) :: scopes =>
        exists b, s' = {| a_pos := pos; a_ok := b; a_limit := old_limit; a_exact := old_exact; a_longer := a_longer s; a_behind := a_behind s; a_scopes := scopes |} /\
          (b = true -> a_ok s = true) /\
          (** if the inner limit was reached then the source may not continue *)
          (b = true -> longer = true -> pos = limit -> a_behind s = false -> Z.min old_limit size <= pos /\ enough s')
      end
    | _ => False
    end.
  Definition may_fail (c : lcall) (s : state) : Prop :=
    match c with
    | LReader c => may_fail_reader c s
    | LSetMaxLength _ | LScope _ _ _ => True (** [options_call] tells when *)
    | LEndScope =>
      match a_scopes s with
      | (old_limit, old_exact, true) :: _ => a_pos s = a_limit s /\ (a_pos s < Z.min old_limit size \/ (old_exact = true /\ size < old_limit) \/ a_behind s = true)
      | _ => False
      end
    | _ => False
    end.
  (** What the documentation requires of the user: a ScopedLimiter ends when the limit is not greater than before it.
      Besides that: the limit is not increased while the original reader may be behind it (see the theorem C37_behind_refuted). *)
  Definition required (c : lcall) (s : state) : Prop :=
    match c with
    | LSetMaxPos p => a_behind s = true -> p <= a_limit s
    | LSetMaxLength n => a_behind s = true -> n = 0
    | LClearLimit => a_behind s = false
    | LEndScope => match a_scopes s with [] => False | (old_limit, _, _) :: _ => a_limit s <= old_limit /\ (a_behind s = true -> old_limit = a_limit s) end
    | _ => True
    end.
  Definition observed (s : state) (o : lobservation) : Prop := q_pos o = a_pos s /\ q_ok o = a_ok s /\ q_max_pos o = a_limit s /\ q_exact o = a_exact s.
  (** Seeking elsewhere moves the original reader from behind the limit *)
  Definition still_behind (c : call) (s : state) (o : lobservation) : bool := a_behind s && match c with CSeek p => (p =? a_pos s) || negb (q_ok o) | _ => true end.
  Definition lnot_failed (c : lcall) (o : lobservation) : Prop := match c with LReader CClose => q_result o = RBool true | _ => q_ok o = true end.
  (** All calls of a history, as long as requirements are met; [reliable] means that no system call fails *)
  Fixpoint lhistory (reliable : Prop) (calls : list lcall) (s : state) (os : list lobservation) : Prop :=
    match calls with
    | [] => os = []
    | c :: calls =>
      required c s ->
      match os with
      | [] => False
      | o :: os =>
        (reliable -> a_ok s = true -> ~ may_fail c s -> lnot_failed c o) /\
        exists s',
          match c with
          | LReader c =>
            reader_call c s o /\
            s' = {| a_pos := q_pos o; a_ok := q_ok o; a_limit := a_limit s; a_exact := a_exact s; a_longer := a_longer s; a_behind := still_behind c s o; a_scopes := a_scopes s |}
          | LSyncFromObject =>
            (** the original reader gets the position; if it is owned then it is synchronized too *)
            (exists b, q_result o = RBool b /\ b = q_ok o /\ (b = true -> a_ok s = true)) /\
            (q_ok o = true -> q_pos o = a_pos s /\ (a_behind s = false -> q_src_pos o = q_pos o)) /\ observed s' o /\
            s' = {| a_pos := q_pos o; a_ok := q_ok o; a_limit := a_limit s; a_exact := a_exact s; a_longer := a_longer s; a_behind := a_behind s; a_scopes := a_scopes s |}
          | _ => q_result o = RUnit /\ options_call c s s' /\ observed s' o
          end /\ lhistory reliable calls s' os
      end
    end.
End S.

(** The bytes which a call has read *)
Definition ldata_of (o : lobservation) : list Z := match q_result o with RBytes _ data => data | _ => [] end.
(** A newly created LimitingReader *)
Definition initial (pos : Z) (ok : bool) (o : limit_option) (exact longer : bool) : state :=
  let wanted := match o with NoLimit => kMaxPosition | MaxPos p => p | MaxLength n => pos + n end in
  let limit := Z.min wanted kMaxPosition in
  {| a_pos := Z.min pos limit; a_ok := ok && negb (exact && (kMaxPosition <? wanted)); a_limit := limit; a_exact := exact; a_longer := longer;
     a_behind := limit <? pos; a_scopes := [] |}.
Definition limit_option_ok (o : limit_option) : Prop := match o with NoLimit => True | MaxPos p => 0 <= p < 2 ^ 64 | MaxLength n => 0 <= n < 2 ^ 64 end.
Definition lcall_ok (c : lcall) : Prop :=
  match c with
  | LReader c => call_ok c
  | LSetMaxPos p => 0 <= p < 2 ^ 64
  | LSetMaxLength n => 0 <= n < 2 ^ 64
  | LScope o _ _ => limit_option_ok o
  | _ => True
  end.
