(** Model of riegeli/csv/{csv_writer.h,csv_writer.cc,csv_reader.h,csv_reader.cc}, without headers.

    [None] is a violated precondition, an access out of bounds, or a loop of the model out of fuel.
    Simplifications: headers and status messages are not modelled (an error is one of [csv_error]); destinations of writing do not
    fail; line numbers and record indices do not overflow. *)
From Verif Require Import Base.Bytes Model.BufferedSource Model.Lines.

(** ** CsvWriter *)
(** csv_writer.h:60-250 Options *)
Record writer_options := { w_newline : WriteNewline; w_bom : bool; w_comment : option Z; w_sep : Z; w_quote : option Z }.
Definition opt_eqb (a b : option Z) : bool :=
  match a, b with Some x, Some y => x =? y | None, None => true | _, _ => false end.
Definition is_newline (c : Z) : bool := (c =? LF) || (c =? CR).
(** csv_writer.cc:57-98: whether the options are accepted *)
Definition writer_options_ok (o : writer_options) : bool :=
  negb (match w_comment o with Some c => is_newline c | None => false end) &&
  negb (is_newline (w_sep o)) &&
  negb (opt_eqb (Some (w_sep o)) (w_comment o)) &&
  match w_quote o with
  | None => true
  | Some q => negb (is_newline q) && negb (opt_eqb (Some q) (w_comment o)) && negb (q =? w_sep o)
  end.
(** csv_writer.cc:100-108 quotes_needed_ *)
Definition quotes_needed (o : writer_options) (c : Z) : bool :=
  (c =? LF) || (c =? CR) || opt_eqb (Some c) (w_comment o) || (c =? w_sep o) || opt_eqb (Some c) (w_quote o).

(** csv_writer.cc:147-164 the loop of WriteQuoted: [start <= next_to_check] are offsets in [field] *)
Fixpoint write_quoted_loop (fuel : nat) (q : Z) (field : list Z) (start next_to_check : Z) : option (list Z) :=
  match fuel with
  | O => None
  | S fuel' =>
      match option_map (Z.add next_to_check) (index_of_byte q (zdrop next_to_check field)) with
      | Some next_quote => option_map (app (zslice start (next_quote + 1 - start) field)) (write_quoted_loop fuel' q field next_quote (next_quote + 1))
      | None => Some (zdrop start field)
      end
  end.
(** csv_writer.cc:139-169; [None] if there is no quote character *)
Definition WriteQuoted (o : writer_options) (field : list Z) (already_scanned : Z) : option (list Z) :=
  match w_quote o with
  | None => None
  | Some q => option_map (fun body => [q] ++ body ++ [q]) (write_quoted_loop (S (length field)) q field 0 already_scanned)
  end.
(** csv_writer.cc:171-177 *)
Definition WriteQuotes (o : writer_options) : list Z := match w_quote o with None => [] | Some q => [q; q] end.
(** What writing a field leads to: the bytes written, or a failure.  The outer [option] is as everywhere. *)
Inductive written := Written (bytes : list Z) | WriteFailed.
(** csv_writer.cc:200-217; the offset of the first character which needs quotes *)
Fixpoint first_needed (o : writer_options) (field : list Z) : option Z :=
  match field with
  | [] => None
  | c :: field' => if quotes_needed o c then Some 0 else option_map (Z.add 1) (first_needed o field')
  end.
Definition WriteField (o : writer_options) (field : list Z) : option written :=
  match first_needed o field with
  | Some i => match w_quote o with None => Some WriteFailed | Some _ => option_map Written (WriteQuoted o field i) end
  | None => Some (Written field)
  end.
(** csv_writer.cc:185-195: the condition *)
Definition could_be_bom (o : writer_options) (field : list Z) : bool :=
  match field with
  | [] => w_sep o =? 0xef
  | c0 :: field => (c0 =? 0xef) &&
      match field with
      | [] => w_sep o =? 0xbb
      | c1 :: field => (c1 =? 0xbb) && match field with [] => w_sep o =? 0xbf | c2 :: _ => c2 =? 0xbf end
      end
  end.
(** csv_writer.cc:179-198 *)
Definition WriteFirstField (o : writer_options) (field : list Z) : option written :=
  if could_be_bom o field && negb (opt_eqb (w_quote o) None) then option_map Written (WriteQuoted o field 0) else WriteField o field.

Definition written_app (a : option written) (b : option written) : option written :=
  match a, b with
  | None, _ | Some (Written _), None => None
  | Some WriteFailed, _ | _, Some WriteFailed => Some WriteFailed
  | Some (Written x), Some (Written y) => Some (Written (x ++ y))
  end.
(** csv_writer.h:562-570 the loop over fields after the first one *)
Fixpoint write_fields (o : writer_options) (record : list (list Z)) : option written :=
  match record with
  | [] => Some (Written [])
  | field :: record => written_app (Some (Written [w_sep o])) (written_app (WriteField o field) (write_fields o record))
  end.
(** csv_writer.h:548-585 WriteRecordInternal.  After [WriteFailed] the writer is not ok (and something may have been written). *)
Definition WriteRecord (o : writer_options) (standalone : bool) (record : list (list Z)) : option written :=
  written_app
    (match record with
     | [] => Some (Written [])
     | field :: record =>
         written_app (WriteFirstField o field)
           (match record with
            | [] => if (zlen field =? 0) && negb (w_sep o =? 0xef) then Some (Written (WriteQuotes o)) else Some (Written [])
            | _ => write_fields o record
            end)
     end)
    (Some (Written (if standalone then [] else WriteLine [] (w_newline o)))).
Fixpoint write_records (o : writer_options) (records : list (list (list Z))) : option written :=
  match records with
  | [] => Some (Written [])
  | record :: records => written_app (WriteRecord o false record) (write_records o records)
  end.
(** csv_writer.cc:109-121 with no header, then WriteRecord() for each record.  [WriteFailed] also if the options are rejected. *)
Definition write_csv (o : writer_options) (records : list (list (list Z))) : option written :=
  if writer_options_ok o then written_app (Some (Written (if w_bom o then WriteUtf8Bom else []))) (write_records o records)
  else Some WriteFailed.
(** csv_writer.h:625-637 WriteCsvRecordToString *)
Definition WriteCsvRecordToString (o : writer_options) (record : list (list Z)) : option written :=
  if writer_options_ok o then written_app (Some (Written (if w_bom o then WriteUtf8Bom else []))) (WriteRecord o true record)
  else Some WriteFailed.

(** ** CsvReader *)
(** csv_reader.h:56-351 Options *)
Record reader_options := { c_preserve_bom : bool; c_skip_empty : bool; c_comment : option Z; c_sep : Z; c_quote : option Z; c_escape : option Z;
  c_max_fields : Z; c_max_length : Z }.
(** csv_reader.cc:58-126: whether the options are accepted *)
Definition reader_options_ok (o : reader_options) : bool :=
  negb (match c_comment o with Some c => is_newline c | None => false end) &&
  negb (is_newline (c_sep o)) &&
  negb (opt_eqb (Some (c_sep o)) (c_comment o)) &&
  (match c_quote o with
   | None => true
   | Some q => negb (is_newline q) && negb (opt_eqb (Some q) (c_comment o)) && negb (q =? c_sep o)
   end) &&
  match c_escape o with
  | None => true
  | Some e => negb (is_newline e) && negb (opt_eqb (Some e) (c_comment o)) && negb (e =? c_sep o) && negb (opt_eqb (Some e) (c_quote o))
  end.
(** csv_reader.h:477-485 *)
Inductive CharClass := kOther | kLf | kCr | kComment | kFieldSeparator | kQuote | kEscape.
(** csv_reader.cc:128-143 char_classes_: the last assignment counts *)
Definition class_of (o : reader_options) (c : Z) : CharClass :=
  if opt_eqb (Some c) (c_escape o) then kEscape
  else if opt_eqb (Some c) (c_quote o) then kQuote
  else if c =? c_sep o then kFieldSeparator
  else if opt_eqb (Some c) (c_comment o) then kComment
  else if c =? CR then kCr
  else if c =? LF then kLf
  else kOther.
(** csv_reader.cc:145 *)
Definition quote_char (o : reader_options) : Z := match c_quote o with Some q => q | None => 0 end.

Inductive csv_error := EMaxFields | EMaxLength | EBeforeQuote | EAfterQuote | EMissingQuote | EMissingLf | EMissingEscaped | EUnexpectedNewline | ESource | EOptions.
Record csv_reader := { r_src : source; r_status : option csv_error; r_recoverable : bool; r_standalone : bool; r_index : Z; r_last_line : Z; r_line : Z }.
Definition r_ok (r : csv_reader) : bool := match r_status r with None => true | Some _ => false end.
Definition with_src (r : csv_reader) (s : source) : csv_reader :=
  {| r_src := s; r_status := r_status r; r_recoverable := r_recoverable r; r_standalone := r_standalone r; r_index := r_index r; r_last_line := r_last_line r; r_line := r_line r |}.
Definition add_line (r : csv_reader) : csv_reader :=
  {| r_src := r_src r; r_status := r_status r; r_recoverable := r_recoverable r; r_standalone := r_standalone r; r_index := r_index r; r_last_line := r_last_line r; r_line := r_line r + 1 |}.
Definition start_line (r : csv_reader) : csv_reader :=
  {| r_src := r_src r; r_status := r_status r; r_recoverable := r_recoverable r; r_standalone := r_standalone r; r_index := r_index r; r_last_line := r_line r; r_line := r_line r |}.
Definition add_record (r : csv_reader) : csv_reader :=
  {| r_src := r_src r; r_status := r_status r; r_recoverable := r_recoverable r; r_standalone := r_standalone r; r_index := r_index r + 1; r_last_line := r_last_line r; r_line := r_line r |}.
(** Fail(), possibly after [recoverable_ = true] *)
Definition fail (recoverable : bool) (e : csv_error) (r : csv_reader) : csv_reader :=
  {| r_src := r_src r; r_status := (match r_status r with None => Some e | Some e' => Some e' end); r_recoverable := r_recoverable r || recoverable;
     r_standalone := r_standalone r; r_index := r_index r; r_last_line := r_last_line r; r_line := r_line r |}.
(** csv_reader.cc:582-584 [recoverable_ = false; MarkNotFailed()] *)
Definition mark_not_failed (r : csv_reader) : csv_reader :=
  {| r_src := r_src r; r_status := None; r_recoverable := false; r_standalone := r_standalone r; r_index := r_index r; r_last_line := r_last_line r; r_line := r_line r |}.

(** csv_reader.cc:241-260 SkipLine; [ptr] is an offset from cursor() *)
Fixpoint skip_line_loop (fuel : nat) (r : csv_reader) (ptr : Z) : option csv_reader :=
  match fuel with
  | O => None
  | S fuel' =>
      match (if ptr =? s_avail (r_src r) then
               option_map (fun s => let (pulled, s) := Pull 1 s in (pulled, s, 0)) (move_cursor (s_avail (r_src r)) (r_src r))
             else Some (true, r_src r, ptr)) with
      | None => None
      | Some (false, s, _) => Some (add_line (with_src r s))
      | Some (true, s, ptr) =>
          match cursor_at ptr s with
          | None => None
          | Some c => if c =? LF then option_map (fun s => add_line (with_src r s)) (move_cursor (ptr + 1) s)
                      else skip_line_loop fuel' (with_src r s) (ptr + 1)
          end
      end
  end.
Definition SkipLine (r : csv_reader) : option csv_reader := skip_line_loop (S (length (s_rest (r_src r)))) r 0.

(** csv_reader.cc:272-287 and 381-396: when [ptr == src.limit()].  [inl]: out of data, or failed because the field is too long;
    [inr]: the state with [ptr] not at limit() *)
Definition refill (o : reader_options) (r : csv_reader) (field : list Z) (ptr : Z)
    : option ((bool * list Z * csv_reader) + (list Z * csv_reader * Z)) :=
  if ptr =? s_avail (r_src r) then
    if c_max_length o - zlen field <? s_avail (r_src r) then Some (inl (false, field, fail true EMaxLength r))
    else
      match move_cursor (s_avail (r_src r)) (r_src r) with
      | None => None
      | Some s =>
          let field := field ++ buffer (r_src r) in
          let (pulled, s) := Pull 1 s in
          let r := with_src r s in
          if pulled then Some (inr (field, r, 0))
          else if s_ok s then Some (inl (true, field, r)) else Some (inl (false, field, fail false ESource r))
      end
  else Some (inr (field, r, ptr)).
(** csv_reader.cc:302-307 and 412-417: appends data before the character at [ptr] and moves past it; [None] inside [Some] is a failure
    because the field is too long. *)
Definition flush (o : reader_options) (r : csv_reader) (field : list Z) (ptr : Z) : option (option (list Z * csv_reader)) :=
  if c_max_length o - zlen field <? ptr then Some None
  else option_map (fun s => Some (field ++ ztake ptr (s_rest (r_src r)), with_src r s)) (move_cursor (ptr + 1) (r_src r)).
(** [if (!src.Pull()) { if (!src.ok()) return FailWithoutAnnotation(...); at_end }]: the character at cursor(), or [None] at the end *)
Definition peek (r : csv_reader) : option (bool * option Z * csv_reader) :=
  let (pulled, s) := Pull 1 (r_src r) in
  let r := with_src r s in
  if pulled then match cursor_at 0 s with Some c => Some (true, Some c, r) | None => None end
  else if s_ok s then Some (true, None, r) else Some (false, None, fail false ESource r).

(** csv_reader.cc:262-343 ReadQuoted: the loop.  The result: what is returned, [field], the state *)
Fixpoint read_quoted_loop (fuel : nat) (o : reader_options) (r : csv_reader) (field : list Z) (ptr : Z) : option (bool * list Z * csv_reader) :=
  match fuel with
  | O => None
  | S fuel' =>
      match refill o r field ptr with
      | None => None
      | Some (inl (true, field, r)) => Some (false, field, fail true EMissingQuote r)
      | Some (inl (false, field, r)) => Some (false, field, r)
      | Some (inr (field, r, ptr)) =>
          match cursor_at ptr (r_src r) with
          | None => None
          | Some c =>
              match class_of o c with
              | kOther | kCr | kComment | kFieldSeparator => read_quoted_loop fuel' o r field (ptr + 1)
              | kLf => read_quoted_loop fuel' o (add_line r) field (ptr + 1)
              | kQuote =>
                  match flush o r field ptr with
                  | None => None
                  | Some None => Some (false, field, fail true EMaxLength r)
                  | Some (Some (field, r)) =>
                      match peek r with
                      | None => None
                      | Some (false, _, r) => Some (false, field, r)
                      | Some (true, None, r) => Some (true, field, r)
                      | Some (true, Some c, r) => if c =? quote_char o then read_quoted_loop fuel' o r field 1 else Some (true, field, r)
                      end
                  end
              | kEscape =>
                  match flush o r field ptr with
                  | None => None
                  | Some None => Some (false, field, fail true EMaxLength r)
                  | Some (Some (field, r)) =>
                      match peek r with
                      | None => None
                      | Some (false, _, r) => Some (false, field, r)
                      | Some (true, None, r) => Some (false, field, fail true EMissingEscaped r)
                      | Some (true, Some _, r) => read_quoted_loop fuel' o r field 1
                      end
                  end
              end
          end
      end
  end.
Definition ReadQuoted (o : reader_options) (r : csv_reader) (field : list Z) : option (bool * list Z * csv_reader) :=
  if negb (zlen field =? 0) then Some (false, field, fail true EBeforeQuote r)
  else read_quoted_loop (S (length (s_rest (r_src r)))) o r field 0.

(** The vector of fields of ReadFields is [done ++ field :: stale] or [done ++ stale], [field_index] is the length of [done].
    [Done]: what is returned, the vector, field_index *)
Inductive fields_step := Done (ok : bool) (fields : list (list Z)) (field_index : Z) (r : csv_reader)
                       | Scan (done : list (list Z)) (field : list Z) (stale : list (list Z)) (ptr : Z) (r : csv_reader).
(** csv_reader.cc:365-379 from [next_field] *)
Definition next_field (o : reader_options) (r : csv_reader) (done stale : list (list Z)) : fields_step :=
  if zlen done =? c_max_fields o then Done false (done ++ stale) (zlen done) (fail true EMaxFields r)
  else Scan done [] (tl stale) 0 r.
(** csv_reader.cc:351-363 from [next_record] *)
Definition next_record (o : reader_options) (r : csv_reader) (fields : list (list Z)) : option fields_step :=
  let r := start_line r in
  if r_standalone r then
    if 0 <? r_index r then Some (Done false fields 0 r) else Some (next_field o r [] fields)
  else
    match peek r with
    | None => None
    | Some (true, Some _, r) => Some (next_field o r [] fields)
    | Some (_, _, r) => Some (Done false fields 0 r)
    end.
(** csv_reader.cc:422-434, 471-483: CR was seen: [inl] is a failure *)
Definition after_cr (r : csv_reader) : option (csv_reader + csv_reader) :=
  match peek r with
  | None => None
  | Some (false, _, r) => Some (inl r)
  | Some (true, None, r) => Some (inl (fail true EMissingLf r))
  | Some (true, Some c, r) => if negb (c =? LF) then Some (inl (fail true EMissingLf r)) else option_map (fun s => inr (with_src r s)) (move_cursor 1 (r_src r))
  end.
(** csv_reader.cc:380-512: an iteration of the loop, and what follows until the next iteration *)
Definition scan_step (o : reader_options) (done : list (list Z)) (field : list Z) (stale : list (list Z)) (ptr : Z) (r : csv_reader) : option fields_step :=
  let vector field := done ++ field :: stale in
  match refill o r field ptr with
  | None => None
  | Some (inl (true, field, r)) => Some (Done true (vector field) (zlen done) (add_line r))
  | Some (inl (false, field, r)) => Some (Done false (vector field) (zlen done) r)
  | Some (inr (field, r, ptr)) =>
      match cursor_at ptr (r_src r) with
      | None => None
      | Some c =>
          let newline field r :=
            let r := add_line r in
            if c_skip_empty o && (zlen done =? 0) && (zlen field =? 0) then next_record o r (vector field)
            else if r_standalone r then Some (Done false (vector field) (zlen done) (fail false EUnexpectedNewline r))
            else Some (Done true (vector field) (zlen done) r) in
          let after_flush (k : list Z -> csv_reader -> option fields_step) :=
            match flush o r field ptr with
            | None => None
            | Some None => Some (Done false (vector field) (zlen done) (fail true EMaxLength r))
            | Some (Some (field, r)) => k field r
            end in
          match class_of o c with
          | kOther => Some (Scan done field stale (ptr + 1) r)
          | kComment =>
              if (zlen done =? 0) && (zlen field =? 0) && (ptr =? 0) then
                match move_cursor 1 (r_src r) with
                | None => None
                | Some s => match SkipLine (with_src r s) with None => None | Some r => next_record o r (vector field) end
                end
              else Some (Scan done field stale (ptr + 1) r)
          | kCr => after_flush (fun field r =>
              match after_cr r with
              | None => None
              | Some (inl r) => Some (Done false (vector field) (zlen done) r)
              | Some (inr r) => newline field r
              end)
          | kLf => after_flush newline
          | kFieldSeparator => after_flush (fun field r => Some (next_field o r (done ++ [field]) stale))
          | kEscape => after_flush (fun field r =>
              match peek r with
              | None => None
              | Some (false, _, r) => Some (Done false (vector field) (zlen done) r)
              | Some (true, None, r) => Some (Done false (vector field) (zlen done) (fail true EMissingEscaped r))
              | Some (true, Some _, r) => Some (Scan done field stale 1 r)
              end)
          | kQuote => after_flush (fun field r =>
              match ReadQuoted o r field with
              | None => None
              | Some (false, field, r) => Some (Done false (vector field) (zlen done) r)
              | Some (true, field, r) =>
                  match peek r with
                  | None => None
                  | Some (false, _, r) => Some (Done false (vector field) (zlen done) r)
                  | Some (true, None, r) => Some (Done true (vector field) (zlen done) (add_line r))
                  | Some (true, Some c, r) =>
                      match move_cursor 1 (r_src r) with
                      | None => None
                      | Some s =>
                          let r := with_src r s in
                          let newline_after_quoted r :=
                            let r := add_line r in
                            if r_standalone r then Some (Done false (vector field) (zlen done) (fail false EUnexpectedNewline r))
                            else Some (Done true (vector field) (zlen done) r) in
                          match class_of o c with
                          | kOther | kComment | kEscape => Some (Done false (vector field) (zlen done) (fail true EAfterQuote r))
                          | kFieldSeparator => Some (next_field o r (done ++ [field]) stale)
                          | kCr => match after_cr r with
                                   | None => None
                                   | Some (inl r) => Some (Done false (vector field) (zlen done) r)
                                   | Some (inr r) => newline_after_quoted r
                                   end
                          | kLf => newline_after_quoted r
                          | kQuote => None (* RIEGELI_ASSUME_UNREACHABLE() *)
                          end
                      end
                  end
              end)
          end
      end
  end.
Fixpoint fields_loop (fuel : nat) (o : reader_options) (st : fields_step) : option (bool * list (list Z) * Z * csv_reader) :=
  match st with
  | Done ok fields field_index r => Some (ok, fields, field_index, r)
  | Scan done field stale ptr r =>
      match fuel with
      | O => None
      | S fuel' => match scan_step o done field stale ptr r with None => None | Some st => fields_loop fuel' o st end
      end
  end.
(** csv_reader.cc:345-513: an iteration consumes at least 1 byte, except the last one. *)
Definition ReadFields (o : reader_options) (r : csv_reader) (fields : list (list Z)) : option (bool * list (list Z) * Z * csv_reader) :=
  match next_record o r fields with None => None | Some st => fields_loop (S (length (s_rest (r_src r)))) o st end.

(** csv_reader.cc:563-606 ReadRecordInternal.  [recovery] is given the error and the reader; the vector [record] is reused. *)
Definition recovery_function : Type := csv_error -> csv_reader -> bool.
Fixpoint read_record_loop (fuel : nat) (o : reader_options) (recovery : option recovery_function) (r : csv_reader) (record : list (list Z))
    : option (bool * list (list Z) * csv_reader) :=
  match fuel with
  | O => None
  | S fuel' =>
      match ReadFields o r record with
      | None => None
      | Some (true, record, field_index, r) => Some (true, ztake (field_index + 1) record, add_record r)
      | Some (false, record, _, r) =>
          match recovery, r_status r with
          | Some recover, Some e =>
              if r_recoverable r then
                match SkipLine (mark_not_failed r) with
                | None => None
                | Some r => if recover e r then read_record_loop fuel' o recovery r record
                            else if r_standalone r then Some (true, [[]], add_record r) else Some (false, [], r)
                end
              else Some (false, [], r)
          | _, _ => Some (false, [], r)
          end
      end
  end.
(** Each attempt but the last one consumes at least 1 byte, unless it is the first one (in the case of a standalone record). *)
Definition ReadRecord (o : reader_options) (recovery : option recovery_function) (r : csv_reader) (record : list (list Z)) : option (bool * list (list Z) * csv_reader) :=
  if negb (r_ok r) then Some (false, [], r)
  else if r_standalone r && negb (r_index r =? 0) then None
  else read_record_loop (S (S (length (s_rest (r_src r))))) o recovery r record.

(** csv_reader.cc:44-154 Initialize with no header *)
Definition open_csv (o : reader_options) (standalone : bool) (s : source) : option csv_reader :=
  let r := {| r_src := s; r_status := None; r_recoverable := false; r_standalone := standalone; r_index := 0; r_last_line := 1; r_line := 1 |} in
  if negb (reader_options_ok o) then Some (fail false EOptions r)
  else if negb (s_ok s) then Some (fail false ESource r)
  else if c_preserve_bom o then Some r else option_map (with_src r) (SkipUtf8Bom s).

(** csv_reader.cc:608-647 HasNextRecord *)
Fixpoint has_next_loop (fuel : nat) (o : reader_options) (r : csv_reader) : option (bool * csv_reader) :=
  match fuel with
  | O => None
  | S fuel' =>
      let r := start_line r in
      let lf r :=
        if c_skip_empty o then match move_cursor 1 (r_src r) with None => None | Some s => has_next_loop fuel' o (with_src (add_line r) s) end
        else Some (true, r) in
      match peek r with
      | None => None
      | Some (true, Some c, r) =>
          match class_of o c with
          | kCr =>
              match move_cursor 1 (r_src r) with
              | None => None
              | Some s =>
                  match peek (with_src r s) with
                  | None => None
                  | Some (true, Some c, r) => if negb (c =? LF) then Some (false, r) else lf r
                  | Some (_, _, r) => Some (false, r)
                  end
              end
          | kLf => lf r
          | kComment => match SkipLine r with None => None | Some r => has_next_loop fuel' o r end
          | _ => Some (true, r)
          end
      | Some (_, _, r) => Some (false, r)
      end
  end.
Definition HasNextRecord (o : reader_options) (r : csv_reader) : option (bool * csv_reader) :=
  if negb (r_ok r) then Some (false, r) else has_next_loop (S (length (s_rest (r_src r)))) o r.

(** A StringReader has all data in the buffer. *)
Definition string_source (text : list Z) : source :=
  {| s_rest := text; s_avail := zlen text; s_ok := true; s_fails := false; s_pulls := [] |}.
(** csv_reader.cc:649-663 ReadCsvRecordFromString: the status and the record (a failure always leaves the record empty) *)
Definition ReadCsvRecordFromString (o : reader_options) (recovery : option recovery_function) (text : list Z) (record : list (list Z))
    : option (option csv_error * list (list Z)) :=
  match open_csv o true (string_source text) with
  | None => None
  | Some r =>
      match ReadRecord o recovery r record with
      | None => None
      | Some (true, record, _) => Some (None, record)
      | Some (false, record, r) => match r_status r with None => None (* RIEGELI_ASSERT *) | Some e => Some (Some e, record) end
      end
  end.
