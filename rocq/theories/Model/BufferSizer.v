(** Model of riegeli/bytes/{buffer_options.h,buffer_options.cc}: how long a buffer to use.  [None] is a failed RIEGELI_ASSERT. *)
From Verif Require Import Base.Bytes.

(** arithmetic.h:390-400, 330-340 SaturatingAdd, SaturatingSub of 64-bit numbers *)
Definition SaturatingAdd (a b : Z) : Z := Z.min (a + b) (2 ^ 64 - 1).
Definition SaturatingSub (a b : Z) : Z := Z.max (a - b) 0.
(** arithmetic.h:255-258 *)
Definition UnsignedClamp (value min max : Z) : Z := Z.max (Z.min value max) min.
(** absl::bit_ceil() *)
Definition bit_ceil (x : Z) : Z := 2 ^ Z.log2_up x.

(** buffer_options.h:31-97 BufferOptions: the constructor, set_min_buffer_size(), set_max_buffer_size() limit sizes to 2^31 *)
Record BufferOptions := { min_buffer_size : Z; max_buffer_size : Z }.
Definition make_options (min max : Z) : option BufferOptions :=
  if max <=? 0 then None else Some {| min_buffer_size := Z.min min (2 ^ 31); max_buffer_size := Z.min max (2 ^ 31) |}.

(** base/buffering.h:47-51 *)
Definition ApplySizeHint (base_length : Z) (size_hint : option Z) (pos : Z) : Z :=
  match size_hint with Some h => if pos <=? h then h - pos else base_length | None => base_length end.
(** buffer_options.cc:39-59 *)
Definition ApplySizeHintAndRoundPos (base_length min_length recommended_length max_length : Z) (size_hint : option Z) (pos : Z) (single_run : bool) : Z :=
  let base_length := if single_run then ApplySizeHint base_length size_hint pos else base_length in
  let length_for_rounding := Z.min (Z.max (Z.max base_length min_length) recommended_length) max_length in
  if length_for_rounding =? 0 then min_length
  else
    let rounding_mask := bit_ceil length_for_rounding - 1 in
    let rounded_length := Z.land (Z.lnot pos) rounding_mask + 1 in
    if rounded_length <? min_length then
      u64 (Z.land (u64 (min_length - rounded_length + rounding_mask)) (Z.lnot rounding_mask) + rounded_length)
    else rounded_length.

(** buffer_options.h:284-353 WriteBufferSizer, with 443-456 and buffer_options.cc:83-98 *)
Record WriteBufferSizer := { ws_options : BufferOptions; ws_base_pos : Z; ws_last_run : Z; ws_size_hint : option Z }.
Definition new_write_sizer (o : BufferOptions) : WriteBufferSizer := {| ws_options := o; ws_base_pos := 0; ws_last_run := 0; ws_size_hint := None |}.
Definition ws_set_write_size_hint (pos : Z) (hint : option Z) (s : WriteBufferSizer) : WriteBufferSizer :=
  {| ws_options := ws_options s; ws_base_pos := ws_base_pos s; ws_last_run := ws_last_run s; ws_size_hint := option_map (SaturatingAdd pos) hint |}.
Definition ws_BeginRun (pos : Z) (s : WriteBufferSizer) : WriteBufferSizer :=
  {| ws_options := ws_options s; ws_base_pos := pos; ws_last_run := ws_last_run s; ws_size_hint := ws_size_hint s |}.
Definition ws_EndRun (pos : Z) (s : WriteBufferSizer) : option WriteBufferSizer :=
  if pos <? ws_base_pos s then None
  else if pos =? ws_base_pos s then Some s
  else let length := pos - ws_base_pos s in
       Some {| ws_options := ws_options s; ws_base_pos := ws_base_pos s; ws_last_run := SaturatingAdd length (length - 1); ws_size_hint := ws_size_hint s |}.
Definition ws_BufferLength (s : WriteBufferSizer) (pos min_length recommended_length : Z) : option Z :=
  if pos <? ws_base_pos s then None
  else
    let length := ApplySizeHintAndRoundPos (Z.max (Z.max (pos - ws_base_pos s) (ws_last_run s)) (min_buffer_size (ws_options s)))
                    min_length recommended_length (max_buffer_size (ws_options s)) (ws_size_hint s) pos (ws_last_run s =? 0) in
    Some (match ws_size_hint s with
          | Some h => if pos <=? h then UnsignedClamp length min_length (h - pos) else length
          | None => length
          end).

(** buffer_options.h:197-271 ReadBufferSizer, with 405-441 and buffer_options.cc:63-81 *)
Record ReadBufferSizer := { rs_options : BufferOptions; rs_base_pos : Z; rs_last_run : Z; rs_read_all_hint : bool; rs_exact_size : option Z }.
Definition new_read_sizer (o : BufferOptions) : ReadBufferSizer :=
  {| rs_options := o; rs_base_pos := 0; rs_last_run := 0; rs_read_all_hint := false; rs_exact_size := None |}.
Definition rs_set_read_all_hint (hint : bool) (s : ReadBufferSizer) : ReadBufferSizer :=
  {| rs_options := rs_options s; rs_base_pos := rs_base_pos s; rs_last_run := rs_last_run s; rs_read_all_hint := hint; rs_exact_size := rs_exact_size s |}.
Definition rs_set_exact_size (size : option Z) (s : ReadBufferSizer) : ReadBufferSizer :=
  {| rs_options := rs_options s; rs_base_pos := rs_base_pos s; rs_last_run := rs_last_run s; rs_read_all_hint := rs_read_all_hint s; rs_exact_size := size |}.
Definition rs_BeginRun (pos : Z) (s : ReadBufferSizer) : ReadBufferSizer :=
  {| rs_options := rs_options s; rs_base_pos := pos; rs_last_run := rs_last_run s; rs_read_all_hint := rs_read_all_hint s; rs_exact_size := rs_exact_size s |}.
Definition rs_EndRun (pos : Z) (s : ReadBufferSizer) : option ReadBufferSizer :=
  if pos <? rs_base_pos s then None
  else if pos =? rs_base_pos s then Some s
  else let length := pos - rs_base_pos s in
       Some {| rs_options := rs_options s; rs_base_pos := rs_base_pos s; rs_last_run := SaturatingAdd length (length - 1);
               rs_read_all_hint := rs_read_all_hint s; rs_exact_size := rs_exact_size s |}.
Definition rs_BufferLength (s : ReadBufferSizer) (pos min_length recommended_length : Z) : option Z :=
  if pos <? rs_base_pos s then None
  else
    let length := ApplySizeHintAndRoundPos (Z.max (Z.max (pos - rs_base_pos s) (rs_last_run s)) (min_buffer_size (rs_options s)))
                    min_length recommended_length (max_buffer_size (rs_options s)) (rs_exact_size s) pos (rs_read_all_hint s) in
    Some (match rs_exact_size s with Some e => Z.min length (SaturatingSub e pos) | None => length end).
