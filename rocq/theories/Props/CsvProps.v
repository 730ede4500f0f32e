(** C35: CSV *)
From Verif Require Import Base.Bytes Model.BufferedSource Model.Lines Model.Csv Spec.CsvSpec Proof.SourceProof Proof.CsvPure Proof.CsvLockstep Proof.CsvGrammar Proof.CsvWriterProof Proof.CsvProof.

(** ReadRecord() returns [true] exactly if the text has a record of the format, and then the result is that record (old contents of
    the vector do not matter, and neither does the buffering of the source); it returns [false] without failing exactly at the
    end. *)
Theorem C35_read_record o r record : reader_options_ok o = true -> 1 <= c_max_fields o -> 0 <= c_max_length o -> csv_readable r ->
  exists ok fields r', ReadRecord o None r record = Some (ok, fields, r') /\
    (forall fields' rest', (ok = true /\ fields = fields' /\ s_rest (r_src r') = rest') <->
       accepts o (s_fails (r_src r)) (r_standalone r) (s_rest (r_src r)) fields' rest') /\
    ((ok = false /\ r_status r' = None) <-> (skips o (s_rest (r_src r)) [] /\ s_fails (r_src r) = false /\ r_standalone r = false)) /\
    0 <= s_avail (r_src r') <= zlen (s_rest (r_src r')) /\ (s_fails (r_src r') = false -> s_ok (r_src r') = true) /\
    s_fails (r_src r') = s_fails (r_src r) /\ r_standalone r' = r_standalone r /\ suffix (s_rest (r_src r')) (s_rest (r_src r)) /\
    (ok = true -> r_status r' = None /\ r_recoverable r' = false /\ r_index r' = r_index r + 1) /\
    (ok = false -> fields = [] /\ r_index r' = r_index r /\ (r_status r' = None -> r_recoverable r' = false /\ s_rest (r_src r') = [])) /\
    (ok = true -> r_standalone r = false -> c_escape o = None -> exists skipped text1 consumed terminated,
       s_rest (r_src r) = skipped ++ text1 /\ text1 = consumed ++ s_rest (r_src r') /\
       skips o (s_rest (r_src r)) text1 /\ record_at o false text1 fields terminated (s_rest (r_src r')) /\
       r_last_line r' = r_line r + count_lf skipped /\ r_line r' = r_last_line r' + count_lf consumed + (if terminated then 0 else 1)).
Proof. exact (ReadRecord_grammar o r record). Qed.
Print Assumptions C35_read_record.

(** The format is unambiguous. *)
Theorem C35_unambiguous o fails standalone text fields1 rest1 fields2 rest2 : reader_options_ok o = true -> 1 <= c_max_fields o -> 0 <= c_max_length o ->
  accepts o fails standalone text fields1 rest1 -> accepts o fails standalone text fields2 rest2 -> fields1 = fields2 /\ rest1 = rest2.
Proof.
  intros Ok Mf Ml A1 A2. apply (p_record_accepts o fails standalone text 0) in A1; [|assumption..]. apply (p_record_accepts o fails standalone text 0) in A2; [|assumption..].
  destruct A1 as (a & b & A1), A2 as (c & d & A2). rewrite A1 in A2. injection A2; auto.
Qed.
Print Assumptions C35_unambiguous.

(** With recovery: a record which is returned is a record of the text, beginning at the beginning of a line (or where reading
    began); the reader fails only if the source fails or the record is not standalone when it should be. *)
Theorem C35_recovery o recover r record : reader_options_ok o = true -> 1 <= c_max_fields o -> 0 <= c_max_length o -> csv_readable r ->
  exists ok fields r' text', ReadRecord o (Some recover) r record = Some (ok, fields, r') /\ line_start (s_rest (r_src r)) text' /\
    0 <= s_avail (r_src r') <= zlen (s_rest (r_src r')) /\ (s_fails (r_src r') = false -> s_ok (r_src r') = true) /\ s_fails (r_src r') = s_fails (r_src r) /\
    suffix (s_rest (r_src r')) (s_rest (r_src r)) /\ r_standalone r' = r_standalone r /\ (r_status r' = None -> r_recoverable r' = false) /\
    (ok = true -> r_status r' = None /\ r_index r' = r_index r + 1) /\
    ((accepts o (s_fails (r_src r)) (r_standalone r) text' fields (s_rest (r_src r')) /\ ok = true) \/
     (ok = false /\ fields = [] /\ r_status r' = None /\ skips o text' [] /\ s_fails (r_src r) = false /\ r_standalone r = false /\ r_index r' = r_index r) \/
     (ok = false /\ fields = [] /\ r_recoverable r' = false /\ (r_status r' = Some ESource \/ r_status r' = Some EUnexpectedNewline \/ r_status r' = Some EOptions) /\
        ~ (exists fields rest, accepts o (s_fails (r_src r)) (r_standalone r) text' fields rest)) \/
     (r_status r' = None /\ s_rest (r_src r') = text' /\ (exists e r0, recover e r0 = false) /\
      (if r_standalone r then ok = true /\ fields = [[]] else ok = false /\ fields = [] /\ r_index r' = r_index r))).
Proof. exact (ReadRecord_recovery o recover r record). Qed.
Print Assumptions C35_recovery.

(** What was written is read back, whatever the contents of fields and the buffering of the source. *)
Theorem C35_round_trip w o records : matching w o -> writer_options_ok w = true -> 1 <= c_max_fields o -> 0 <= c_max_length o ->
  Forall (fun record => record <> [] /\ writable w record /\ within_limits o record /\ (w_quote w = None -> c_skip_empty o = true -> record <> [[]])) records -> bom_safe w o records ->
  exists bytes, write_csv w records = Some (Written bytes) /\
  forall s record fuel, 0 <= s_avail s <= zlen (s_rest s) -> s_ok s = true -> s_fails s = false -> s_rest s = bytes -> (length records < fuel)%nat ->
  exists r r', open_csv o false s = Some r /\ read_csv fuel o r record = Some (records, r') /\ r_status r' = None /\ s_rest (r_src r') = [] /\ r_index r' = zlen records.
Proof. intros M Ok Mf Ml. exact (csv_round_trip w o M Ok Mf Ml records). Qed.
Print Assumptions C35_round_trip.
Theorem C35_standalone_round_trip w o recovery record old : matching w o -> writer_options_ok w = true -> 1 <= c_max_fields o -> 0 <= c_max_length o ->
  record <> [] -> writable w record -> within_limits o record -> bom_safe w o [record] ->
  exists bytes, WriteCsvRecordToString w record = Some (Written bytes) /\ ReadCsvRecordFromString o recovery bytes old = Some (None, record).
Proof. intros M Ok Mf Ml. exact (csv_standalone_round_trip w o M Ok Mf Ml recovery record old). Qed.
Print Assumptions C35_standalone_round_trip.

(** Without quotes, writing fails exactly if a field has a special character: nothing which would be misread is written. *)
Theorem C35_write_fails w records : w_quote w = None -> writer_options_ok w = true ->
  exists res, write_csv w records = Some res /\ (res = WriteFailed <-> exists record field c, In record records /\ In field record /\ In c field /\ special w c).
Proof. exact (write_csv_fails w records). Qed.
Print Assumptions C35_write_fails.

(** HasNextRecord() does not change which record is next, and if it returns [false] without failing then either there are no more
    records, or CR was found without LF. *)
Theorem C35_has_next o r : reader_options_ok o = true -> 1 <= c_max_fields o -> 0 <= c_max_length o -> csv_readable r -> r_standalone r = false ->
  exists b r', HasNextRecord o r = Some (b, r') /\ r_index r' = r_index r /\
    (b = true -> csv_readable r' /\ s_fails (r_src r') = s_fails (r_src r) /\ ~ skips o (s_rest (r_src r)) [] /\
       forall fields rest, accepts o (s_fails (r_src r)) false (s_rest (r_src r)) fields rest <-> accepts o (s_fails (r_src r')) false (s_rest (r_src r')) fields rest) /\
    (b = false ->
       (r_status r' = Some ESource /\ s_fails (r_src r) = true) \/
       (r_status r' = None /\ skips o (s_rest (r_src r)) [] /\ s_fails (r_src r) = false /\ s_rest (r_src r') = []) \/
       (r_status r' = None /\ skips o (s_rest (r_src r)) (CR :: s_rest (r_src r')) /\ forall t, s_rest (r_src r') <> LF :: t)).
Proof. exact (HasNextRecord_grammar o r). Qed.
Print Assumptions C35_has_next.

(** ** Examples *)
Definition comma : Z := 44. Definition quote : Z := 34. Definition hash_sign : Z := 35.
Definition ex_w : writer_options := {| w_newline := WCrLf; w_bom := false; w_comment := Some hash_sign; w_sep := comma; w_quote := Some quote |}.
Definition ex_o : reader_options := {| c_preserve_bom := false; c_skip_empty := true; c_comment := Some hash_sign; c_sep := comma; c_quote := Some quote; c_escape := None; c_max_fields := 100; c_max_length := 1000 |}.
Definition ex_records : list (list (list Z)) :=
  [ [kUtf8Bom; [65; comma; 66]; []]; [[]]; [[hash_sign]; [quote; 65; quote; quote]; [13; 10; 65]]; [[66]] ].
Example C35_example_hypotheses : matching ex_w ex_o /\ writer_options_ok ex_w = true /\
  Forall (fun record => record <> [] /\ writable ex_w record /\ within_limits ex_o record /\ (w_quote ex_w = None -> c_skip_empty ex_o = true -> record <> [[]])) ex_records /\
  bom_safe ex_w ex_o ex_records.
Proof.
  split; [repeat split|]. split; [reflexivity|]. split; [|right; discriminate].
  repeat constructor; try discriminate; try (intro; discriminate); cbn; try lia.
Qed.
Definition ex_source (text : list Z) (pulls : list Z) : source := source_of text false pulls.
Example C35_example : exists bytes r r', write_csv ex_w ex_records = Some (Written bytes) /\ open_csv ex_o false (ex_source bytes [2; 1; 3; 1; 1; 4]) = Some r /\
  read_csv 10 ex_o r [[65]] = Some (ex_records, r') /\ r_status r' = None.
Proof. eexists. eexists. eexists. vm_compute. repeat split. Qed.
(** Comments, empty lines, a quoted field with a newline: the second record begins at line 5. *)
Definition ex_text : list Z := [hash_sign; 120; LF; LF; 65; comma; quote; LF; quote; LF; hash_sign; LF; 66].
Example C35_lines_example : exists r r', open_csv ex_o false (ex_source ex_text []) = Some r /\
  match ReadRecord ex_o None r [] with
  | Some (true, fields, r1) => fields = [[65]; [LF]] /\ r_last_line r1 = 3 /\ ReadRecord ex_o None r1 fields = Some (true, [[66]], r')
  | _ => False
  end /\ r_last_line r' = 6 /\ r_line r' = 7.
Proof. eexists. eexists. vm_compute. repeat split. Qed.
Example C35_has_next_example : exists r r', open_csv ex_o false (ex_source ex_text []) = Some r /\ csv_readable r /\ HasNextRecord ex_o r = Some (true, r') /\ s_rest (r_src r') = zdrop 4 ex_text.
Proof. eexists. eexists. vm_compute. repeat split; discriminate. Qed.
Example C35_recovery_example : exists r r', open_csv ex_o false (ex_source [65; quote; LF; 66; LF] []) = Some r /\ csv_readable r /\
  ReadRecord ex_o (Some (fun _ _ => true)) r [] = Some (true, [[66]], r').
Proof. eexists. eexists. vm_compute. repeat split; discriminate. Qed.

(** ** What does not hold *)
(** HasNextRecord() returns [false] without failing although there is more data: CR without LF, which ReadRecord() would report. *)
Theorem C35_has_next_cr_refuted : exists o r r' e r2, csv_readable r /\ HasNextRecord o r = Some (false, r') /\ r_status r' = None /\ s_rest (r_src r') = [65; LF] /\
  ReadRecord o None r [] = Some (false, [], r2) /\ r_status r2 = Some e.
Proof.
  exists ex_o, (st (ex_source [CR; 65; LF] []) false 0 1 1). eexists. exists EMissingLf. eexists. split; [vm_compute; repeat split; discriminate|]. split; [vm_compute; reflexivity|]. vm_compute. repeat split.
Qed.
Print Assumptions C35_has_next_cr_refuted.
(** Without quotes, UTF-8 BOM at the beginning of the first field is lost. *)
Theorem C35_no_quote_bom_refuted : exists w o records bytes r r', matching w o /\ writer_options_ok w = true /\ w_quote w = None /\ w_bom w = false /\ c_preserve_bom o = false /\
  Forall (fun record => record <> [] /\ writable w record /\ within_limits o record /\ record <> [[]]) records /\
  write_csv w records = Some (Written bytes) /\ open_csv o false (string_source bytes) = Some r /\ read_csv 2 o r [] = Some ([[[65]]], r') /\ r_status r' = None /\ records <> [[[65]]].
Proof.
  exists {| w_newline := WLf; w_bom := false; w_comment := None; w_sep := comma; w_quote := None |}.
  exists {| c_preserve_bom := false; c_skip_empty := false; c_comment := None; c_sep := comma; c_quote := None; c_escape := None; c_max_fields := 100; c_max_length := 1000 |}.
  exists [[kUtf8Bom ++ [65]]]. eexists. eexists. eexists. split; [repeat split|]. do 4 (split; [reflexivity|]). split.
  - constructor; [|constructor]. split; [discriminate|]. split; [|split; [repeat constructor; cbn; lia|discriminate]]. intros _. constructor; [|constructor].
    unfold plain, special. cbn. intros c Hc. intuition (subst; try discriminate).
  - vm_compute. repeat split. discriminate.
Qed.
Print Assumptions C35_no_quote_bom_refuted.
(** Quotes do not help if the quote character is the first byte of UTF-8 BOM. *)
Theorem C35_quote_bom_refuted : exists w o records bytes r, matching w o /\ writer_options_ok w = true /\ w_quote w = Some 0xef /\ w_bom w = false /\ c_preserve_bom o = false /\
  Forall (fun record => record <> [] /\ writable w record /\ within_limits o record) records /\
  write_csv w records = Some (Written bytes) /\ open_csv o false (string_source bytes) = Some r /\ forall r', read_csv 2 o r [] <> Some (records, r').
Proof.
  exists {| w_newline := WLf; w_bom := false; w_comment := None; w_sep := comma; w_quote := Some 0xef |}.
  exists {| c_preserve_bom := false; c_skip_empty := false; c_comment := None; c_sep := comma; c_quote := Some 0xef; c_escape := None; c_max_fields := 100; c_max_length := 1000 |}.
  exists [[[0xbb; 0xbf; comma]]]. eexists. eexists. split; [repeat split|]. do 4 (split; [reflexivity|]). split.
  - constructor; [|constructor]. split; [discriminate|]. split; [discriminate|]. split; [vm_compute; discriminate|repeat constructor; vm_compute; discriminate].
  - split; [reflexivity|]. split; [reflexivity|]. intros r' X. vm_compute in X. discriminate X.
Qed.
Print Assumptions C35_quote_bom_refuted.
(** After a field which is too long, the place where reading is resumed depends on the buffering of the source, and line numbers are
    counted twice. *)
Definition ex_small : reader_options := {| c_preserve_bom := true; c_skip_empty := false; c_comment := None; c_sep := comma; c_quote := Some quote; c_escape := None; c_max_fields := 100; c_max_length := 3 |}.
Definition ex_long : list Z := [quote; 65; LF; 66; LF; 67; 68; 69; quote; LF; 70; LF].
Theorem C35_recovery_buffering_refuted : exists o recover s1 s2 r1 r2 r1' r2', s_rest s1 = s_rest s2 /\ open_csv o false s1 = Some r1 /\ open_csv o false s2 = Some r2 /\
  ReadRecord o (Some recover) r1 [] = Some (true, [[66]], r1') /\ ReadRecord o (Some recover) r2 [] = Some (true, [[70]], r2') /\ r_last_line r1' = 4.
Proof.
  exists ex_small, (fun _ _ => true), (ex_source ex_long [100]), (ex_source ex_long [1; 1; 1; 1; 1; 1; 1; 1; 1; 1; 1; 1]). eexists. eexists. eexists. eexists. vm_compute. repeat split.
Qed.
Print Assumptions C35_recovery_buffering_refuted.
(** Escaped LF is not counted as a line: the second record begins at line 3. *)
Theorem C35_escaped_line_refuted : exists o text r r1 r2, open_csv o false (string_source text) = Some r /\
  ReadRecord o None r [] = Some (true, [[65; LF]], r1) /\ ReadRecord o None r1 [] = Some (true, [[66]], r2) /\ r_last_line r2 = 2 /\ text = [65; 92; LF; LF; 66; LF].
Proof.
  exists {| c_preserve_bom := true; c_skip_empty := false; c_comment := None; c_sep := comma; c_quote := None; c_escape := Some 92; c_max_fields := 100; c_max_length := 100 |}, [65; 92; LF; LF; 66; LF].
  eexists. eexists. eexists. vm_compute. repeat split.
Qed.
Print Assumptions C35_escaped_line_refuted.
