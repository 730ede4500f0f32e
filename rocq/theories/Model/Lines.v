(** Model of riegeli/lines/{newline.h,line_writing.h,line_reading.h,line_reading.cc,text_writer.cc,text_reader.cc}.

    [None] is a violated precondition, an access out of bounds, or a loop of the model out of fuel.
    Simplifications: destinations of writing do not fail; the versions of ReadLine() for std::string, Chain and absl::Cord are one
    template in the code, here with the contents of the destination as a list. *)
From Verif Require Import Base.Bytes Model.BufferedSource.

(** newline.h:23-37 *)
Inductive ReadNewline := RLf | RCrLfOrLf.
Inductive WriteNewline := WLf | WCrLf.
(** line_writing.h:98-115: the bytes written *)
Definition WriteLine (line : list Z) (newline : WriteNewline) : list Z :=
  line ++ match newline with WLf => [LF] | WCrLf => [CR; LF] end.
(** line_writing.h:149 *)
Definition WriteUtf8Bom : list Z := kUtf8Bom.

(** line_reading.h:33-92 ReadLineOptions *)
Record line_options := { o_newline : ReadNewline; o_keep : bool; o_max : Z }.
(** The result: what is returned, [dest], and [src] afterwards *)
Definition line_result : Type := (bool * list Z) * source.

(** line_reading.cc:46-88 ReadFlatAndSkip, ReadFlat: [length_to_write <= length_to_read <= available()]; [append] is [false] for
    string_view *)
Definition ReadFlatAndSkip (append : bool) (length_to_read length_to_write : Z) (s : source) (dest : list Z) : option (source * list Z) :=
  if (0 <=? length_to_write) && (length_to_write <=? length_to_read) then
    option_map (fun s' => (s', (if append then dest else []) ++ ztake length_to_write (s_rest s))) (move_cursor length_to_read s)
  else None.
(** line_reading.cc:90-96 *)
Definition FailMaxLineLengthExceeded (append : bool) (max_length : Z) (s : source) (dest : list Z) : option line_result :=
  match ReadFlatAndSkip append max_length max_length s dest with
  | None => None
  | Some (s, dest) => Some ((false, dest), src_fail s)
  end.
(** line_reading.cc:98-108 *)
Definition FoundNewline (append : bool) (o : line_options) (s : source) (dest : list Z) (length newline_length : Z) : option line_result :=
  let length_with_newline := length + newline_length in
  let length := if o_keep o then length_with_newline else length in
  if o_max o <? length then FailMaxLineLengthExceeded append (o_max o) s dest
  else
    match ReadFlatAndSkip append length_with_newline length s dest with
    | None => None
    | Some (s, dest) => Some ((true, dest), s)
    end.

(** What an iteration leads to: a returned result, or [goto continue_reading] with [length]. *)
Inductive step := Return (r : line_result) | Continue (length : Z) (s : source).
Definition returned (r : option line_result) : option step := option_map Return r.
(** line_reading.cc:124-165: the loop for kCrLfOrLf, with [newline] searched from the offset [from] *)
Fixpoint crlf_loop (fuel : nat) (o : line_options) (from : Z) (s : source) (dest : list Z) : option step :=
  match fuel with
  | O => None
  | S fuel' =>
      match memchr_from from LF s with
      | None => None
      | Some (Some newline) =>
          if 0 <? newline then
            match cursor_at (newline - 1) s with
            | None => None
            | Some c => if c =? CR then returned (FoundNewline true o s dest (newline - 1) 2)
                        else returned (FoundNewline true o s dest newline 1)
            end
          else returned (FoundNewline true o s dest newline 1)
      | Some None =>
          match cursor_at (s_avail s - 1) s with
          | None => None
          | Some c =>
              if negb (c =? CR) then Some (Continue (s_avail s) s)
              else
                let length := s_avail s - 1 in
                if 0 <? length then Some (Continue length s)
                else
                  let (pulled, s) := Pull 2 s in
                  if negb pulled then
                    if o_max o <? 1 then returned (FailMaxLineLengthExceeded true (o_max o) s dest)
                    else match ReadFlatAndSkip true 1 1 s dest with
                         | None => None
                         | Some (s, dest) => Some (Return ((s_ok s, dest), s))
                         end
                  else
                    match cursor_at 1 s with
                    | None => None
                    | Some c => if c =? LF then returned (FoundNewline true o s dest 0 2) else crlf_loop fuel' o 2 s dest
                    end
          end
      end
  end.
(** line_reading.cc:115-123 *)
Definition lf_step (o : line_options) (s : source) (dest : list Z) : option step :=
  match memchr_from 0 LF s with
  | None => None
  | Some (Some newline) => returned (FoundNewline true o s dest newline 1)
  | Some None => Some (Continue (s_avail s) s)
  end.
(** line_reading.cc:110-175 ReadLineInternal; crlf_loop goes around at most twice. *)
Fixpoint line_loop (fuel : nat) (o : line_options) (s : source) (dest : list Z) : option line_result :=
  match fuel with
  | O => None
  | S fuel' =>
      match (match o_newline o with RLf => lf_step o s dest | RCrLfOrLf => crlf_loop 2 o 0 s dest end) with
      | None => None
      | Some (Return r) => Some r
      | Some (Continue length s) =>
          if o_max o <? length then FailMaxLineLengthExceeded true (o_max o) s dest
          else
            let o := {| o_newline := o_newline o; o_keep := o_keep o; o_max := o_max o - length |} in
            match ReadFlatAndSkip true length length s dest with
            | None => None
            | Some (s, dest) => let (pulled, s) := Pull 1 s in if pulled then line_loop fuel' o s dest else Some ((s_ok s, dest), s)
            end
      end
  end.
(** line_reading.cc:239-252 with ReadLineInternal: std::string, Chain, Cord.  Each iteration of the loop consumes at least 1 byte. *)
Definition ReadLine (o : line_options) (s : source) : option line_result :=
  let (pulled, s) := Pull 1 s in
  if negb pulled then Some ((false, []), s) else line_loop (S (length (s_rest s))) o s [].

(** line_reading.cc:197-224: the loop for kCrLfOrLf of the version for string_view *)
Fixpoint view_crlf_loop (fuel : nat) (o : line_options) (length : Z) (s : source) : option step :=
  match fuel with
  | O => None
  | S fuel' =>
      match memchr_from length LF s with
      | None => None
      | Some (Some newline) =>
          if 0 <? newline then
            match cursor_at (newline - 1) s with
            | None => None
            | Some c => if c =? CR then returned (FoundNewline false o s [] (newline - 1) 2)
                        else returned (FoundNewline false o s [] newline 1)
            end
          else returned (FoundNewline false o s [] newline 1)
      | Some None =>
          match cursor_at (s_avail s - 1) s with
          | None => None
          | Some c =>
              if negb (c =? CR) then Some (Continue (s_avail s) s)
              else
                let length := s_avail s - 1 in
                if o_max o <? length then returned (FailMaxLineLengthExceeded false (o_max o) s [])
                else
                  let (pulled, s) := Pull (length + 2) s in
                  if negb pulled then
                    if o_max o <? s_avail s then returned (FailMaxLineLengthExceeded false (o_max o) s [])
                    else match ReadFlatAndSkip false (s_avail s) (s_avail s) s [] with
                         | None => None
                         | Some (s, dest) => Some (Return ((s_ok s, dest), s))
                         end
                  else
                    match cursor_at (length + 1) s with
                    | None => None
                    | Some c => if c =? LF then returned (FoundNewline false o s [] length 2) else view_crlf_loop fuel' o (length + 2) s
                    end
          end
      end
  end.
(** line_reading.cc:186-196 *)
Definition view_lf_step (o : line_options) (length : Z) (s : source) : option step :=
  match memchr_from length LF s with
  | None => None
  | Some (Some newline) => returned (FoundNewline false o s [] newline 1)
  | Some None => Some (Continue (s_avail s) s)
  end.
(** line_reading.cc:179-237 *)
Fixpoint view_loop (fuel : nat) (o : line_options) (len : Z) (s : source) : option line_result :=
  match fuel with
  | O => None
  | S fuel' =>
      match (match o_newline o with
             | RLf => view_lf_step o len s
             | RCrLfOrLf => view_crlf_loop (S (length (s_rest s))) o len s
             end) with
      | None => None
      | Some (Return r) => Some r
      | Some (Continue len s) =>
          if o_max o <? len then FailMaxLineLengthExceeded false (o_max o) s []
          else
            let (pulled, s) := Pull (len + 1) s in
            if pulled then view_loop fuel' o len s
            else match ReadFlatAndSkip false (s_avail s) (s_avail s) s [] with
                 | None => None
                 | Some (s, dest) => Some ((s_ok s, dest), s)
                 end
      end
  end.
Definition ReadLine_view (o : line_options) (s : source) : option line_result :=
  let (pulled, s) := Pull 1 s in
  if negb pulled then Some ((false, []), s) else view_loop (S (length (s_rest s))) o 0 s.

(** line_reading.cc:259-264 *)
Definition SkipUtf8Bom (s : source) : option source :=
  let (pulled, s) := Pull (zlen kUtf8Bom) s in
  if pulled && list_eqb (ztake (zlen kUtf8Bom) (buffer s)) kUtf8Bom then move_cursor (zlen kUtf8Bom) s else Some s.

(** ** TextWriter with CR-LF newlines: text_writer.cc:54-81 WriteInternal.  What is written, for one call *)
Fixpoint text_write_loop (fuel : nat) (src : list Z) : option (list Z) :=
  match fuel with
  | O => None
  | S fuel' =>
      match index_of_byte LF src with
      | None => Some src
      | Some length => option_map (app (WriteLine (ztake length src) WCrLf)) (text_write_loop fuel' (zdrop (length + 1) src))
      end
  end.
Definition TextWrite (src : list Z) : option (list Z) := text_write_loop (S (length src)) src.

(** ** TextReader recognizing CR-LF: text_reader.cc:103-166 ReadInternal *)
(** [t_ok] is ok() of the TextReader itself, distinct from the one of its source. *)
Record text_reader := { t_src : source; t_pending_cr : bool; t_ok : bool }.
Definition text_reader_of (s : source) : text_reader := {| t_src := s; t_pending_cr := false; t_ok := true |}.
(** The result: what is returned, the data stored in [dest], and the state afterwards *)
Fixpoint text_read_loop (fuel : nat) (t : text_reader) (min_length max_length : Z) : option ((bool * list Z) * text_reader) :=
  match fuel with
  | O => None
  | S fuel' =>
      (* the recommended length is not modelled: [Pull] makes available any amount *)
      let (pulled, s) := Pull 1 (t_src t) in
      if negb pulled then
        if t_pending_cr t then Some ((min_length <=? 1, [CR]), {| t_src := s; t_pending_cr := false; t_ok := t_ok t |})
        else Some ((false, []), {| t_src := s; t_pending_cr := false; t_ok := t_ok t |})
      else
        match
          (if t_pending_cr t then
             match cursor_at 0 s with
             | None => None
             | Some c => if c =? LF then option_map (fun s => ([LF], {| t_src := s; t_pending_cr := false; t_ok := t_ok t |})) (move_cursor 1 s)
                         else Some ([CR], {| t_src := s; t_pending_cr := false; t_ok := t_ok t |})
             end
           else
             let length := Z.min (s_avail s) max_length in
             match index_of_byte CR (ztake length (s_rest s)) with
             | None => option_map (fun s' => (ztake length (s_rest s), {| t_src := s'; t_pending_cr := false; t_ok := t_ok t |})) (move_cursor length s)
             | Some length =>
                 if length =? s_avail s - 1 then
                   option_map (fun s' => (ztake length (s_rest s), {| t_src := s'; t_pending_cr := true; t_ok := t_ok t |})) (move_cursor (length + 1) s)
                 else
                   match cursor_at (length + 1) s, move_cursor (length + 1) s with
                   | Some c, Some s' =>
                       if c =? LF then option_map (fun s' => (ztake length (s_rest s) ++ [LF], {| t_src := s'; t_pending_cr := false; t_ok := t_ok t |})) (move_cursor 1 s')
                       else Some (ztake length (s_rest s) ++ [CR], {| t_src := s'; t_pending_cr := false; t_ok := t_ok t |})
                   | _, _ => None
                   end
             end)
        with
        | None => None
        | Some (data, t) =>
            if min_length <=? zlen data then Some ((true, data), t)
            else option_map (fun r => ((fst (fst r), data ++ snd (fst r)), snd r)) (text_read_loop fuel' t (min_length - zlen data) (max_length - zlen data))
        end
  end.
(** The requirements are asserted; every iteration consumes a byte of the source or the pending CR. *)
Definition TextRead (t : text_reader) (min_length max_length : Z) : option ((bool * list Z) * text_reader) :=
  if (1 <=? min_length) && (min_length <=? max_length) then
    text_read_loop (2 * S (length (s_rest (t_src t)))) t min_length max_length
  else None.
