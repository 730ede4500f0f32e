(** The CSV format, independently of the implementation: what a record looks like, for given options. *)
From Verif Require Import Base.Bytes Model.BufferedSource Model.Lines Model.Csv.

(** A character which stands for itself in an unquoted field *)
Definition ordinary (o : reader_options) (c : Z) : Prop :=
  c <> LF /\ c <> CR /\ c <> c_sep o /\ c_quote o <> Some c /\ c_escape o <> Some c.
(** The text of an unquoted field, and its value *)
Inductive unquoted (o : reader_options) : list Z -> list Z -> Prop :=
| unquoted_nil : unquoted o [] []
| unquoted_char c text field : ordinary o c -> unquoted o text field -> unquoted o (c :: text) (c :: field)
| unquoted_escaped e c text field : c_escape o = Some e -> unquoted o text field -> unquoted o (e :: c :: text) (c :: field).
(** The text between quotes, and the value *)
Inductive quoted_body (o : reader_options) : list Z -> list Z -> Prop :=
| quoted_nil : quoted_body o [] []
| quoted_char c text field : c_quote o <> Some c -> c_escape o <> Some c -> quoted_body o text field -> quoted_body o (c :: text) (c :: field)
| quoted_doubled q text field : c_quote o = Some q -> quoted_body o text field -> quoted_body o (q :: q :: text) (q :: field)
| quoted_escaped e c text field : c_escape o = Some e -> quoted_body o text field -> quoted_body o (e :: c :: text) (c :: field).
Inductive field_text (o : reader_options) : list Z -> list Z -> Prop :=
| field_unquoted text field : unquoted o text field -> field_text o text field
| field_quoted q text field : c_quote o = Some q -> quoted_body o text field -> field_text o ([q] ++ text ++ [q]) field.
(** Fields separated by the field separator *)
Inductive fields_text (o : reader_options) : list Z -> list (list Z) -> Prop :=
| fields_one text field : field_text o text field -> fields_text o text [field]
| fields_more text field texts fields : field_text o text field -> fields_text o texts fields ->
    fields_text o (text ++ [c_sep o] ++ texts) (field :: fields).
Definition line_break (nl : list Z) : Prop := nl = [LF] \/ nl = [CR; LF].
(** [record_at o standalone text fields terminated rest]: the text begins with a record.  The last record does not need to be
    terminated; a standalone record is not terminated. *)
Inductive record_at (o : reader_options) (standalone : bool) : list Z -> list (list Z) -> bool -> list Z -> Prop :=
| record_terminated text fields nl rest : standalone = false -> fields_text o text fields -> line_break nl ->
    (forall c text', c_comment o = Some c -> text <> c :: text') -> (c_skip_empty o = true -> text <> []) ->
    record_at o standalone (text ++ nl ++ rest) fields true rest
| record_last text fields : fields_text o text fields ->
    (forall c text', c_comment o = Some c -> text <> c :: text') -> (standalone = false -> text <> []) ->
    record_at o standalone text fields false [].
(** [skips o text rest]: lines which are not records, between the text and the rest *)
Inductive skips (o : reader_options) : list Z -> list Z -> Prop :=
| skips_none text : skips o text text
| skips_comment c line text rest : c_comment o = Some c -> ~ In LF line -> skips o text rest -> skips o (c :: line ++ [LF] ++ text) rest
| skips_last_comment c line : c_comment o = Some c -> ~ In LF line -> skips o (c :: line) []
| skips_empty nl text rest : c_skip_empty o = true -> line_break nl -> skips o text rest -> skips o (nl ++ text) rest.
Definition within_limits (o : reader_options) (fields : list (list Z)) : Prop :=
  zlen fields <= c_max_fields o /\ Forall (fun field => zlen field <= c_max_length o) fields.

(** [accepts o fails standalone text fields rest]: after some skipped lines the text has a record.  If the source fails after the text
    then the record must be terminated. *)
Definition accepts (o : reader_options) (fails standalone : bool) (text : list Z) (fields : list (list Z)) (rest : list Z) : Prop :=
  exists text1 terminated, skips o text text1 /\ record_at o standalone text1 fields terminated rest /\ within_limits o fields /\ (terminated = false -> fails = false).
Definition suffix (a b : list Z) : Prop := exists before, b = before ++ a.

(** A CsvReader which has not failed.  (Its source might have failed already if it is known to fail eventually, with some data left
    in the buffer.) *)
Definition csv_readable (r : csv_reader) : Prop :=
  0 <= s_avail (r_src r) <= zlen (s_rest (r_src r)) /\ (s_fails (r_src r) = false -> s_ok (r_src r) = true) /\
  r_status r = None /\ r_recoverable r = false /\ (r_standalone r = true -> r_index r = 0).
Definition count_lf (text : list Z) : Z := zlen (filter (Z.eqb LF) text).
(** A place where reading may be resumed: the text itself, its end, or a place after LF *)
Definition line_start (text text' : list Z) : Prop := text' = text \/ text' = [] \/ exists before, text = before ++ [LF] ++ text'.

(** [while (csv_reader.ReadRecord(record)) records.push_back(record);] with at most [fuel] calls *)
Fixpoint read_csv (fuel : nat) (o : reader_options) (r : csv_reader) (record : list (list Z)) : option (list (list (list Z)) * csv_reader) :=
  match fuel with
  | O => None
  | S fuel' =>
      match ReadRecord o None r record with
      | None => None
      | Some (false, _, r) => Some ([], r)
      | Some (true, record, r) => option_map (fun '(records, r) => (record :: records, r)) (read_csv fuel' o r record)
      end
  end.

(** ** Writing *)
(** The reader expects what the writer writes. *)
Definition matching (w : writer_options) (o : reader_options) : Prop :=
  c_sep o = w_sep w /\ c_quote o = w_quote w /\ c_comment o = w_comment w /\ c_escape o = None.
(** Characters which cannot be written without quotes *)
Definition special (w : writer_options) (c : Z) : Prop := c = LF \/ c = CR \/ w_comment w = Some c \/ c = w_sep w \/ w_quote w = Some c.
Definition plain (w : writer_options) (field : list Z) : Prop := forall c, In c field -> ~ special w c.
Definition writable (w : writer_options) (record : list (list Z)) : Prop := w_quote w = None -> Forall (plain w) record.
(** How UTF-8 BOM can be preserved: it is written and expected, it is not interpreted, or it is not written by accident, which is
    prevented by quoting *)
Definition bom_safe (w : writer_options) (o : reader_options) (records : list (list (list Z))) : Prop :=
  if w_bom w then c_preserve_bom o = false
  else c_preserve_bom o = true \/
       match w_quote w with
       | Some q => q <> 0xef
       | None => forall field record records', records = (field :: record) :: records' -> forall t t', field ++ [w_sep w] ++ t <> kUtf8Bom ++ t'
       end.
