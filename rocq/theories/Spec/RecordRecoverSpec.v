(** Vocabulary for reading records from damaged files. *)
From Verif Require Import Base.Bytes Model.Chunk Model.ChunkReader Model.ChunkDecoder Model.RecordRecovery Spec.RecordsSpec.

(** Records with their positions: the beginning of the chunk, and the index. *)
Fixpoint numbered (b i : Z) (rs : list (list Z)) : list record_event :=
  match rs with [] => [] | r :: rs => Read (b, i) r :: numbered b (i + 1) rs end.

(** The records of a chunk; [None] if it cannot be decoded. *)
Definition decoded decompress transpose_decode (c : chunk) : option (list (list Z)) :=
  match Decode decompress transpose_decode c with
  | (true, dec) => option_map fst (ReadAllRecords (S (Z.to_nat (dc_num_records dec))) dec)
  | (false, _) => None
  end.
(** What a reader of records makes of what a reader of chunks sees. *)
Definition events_of decompress transpose_decode (e : event) : list record_event :=
  match e with
  | Skipped b e => [Lost b e]
  | Got b c e => match decoded decompress transpose_decode c with Some rs => numbered b 0 rs | None => [Lost b e] end
  end.

(** Positions only go forward, from [p]: a record takes its numeric position, a skipped region is not empty; up to [q]. *)
Inductive forward : Z -> list record_event -> Z -> Prop :=
| fw_nil p q : p <= q -> forward p [] q
| fw_read p b i r es q : 0 <= i -> p <= b + i -> forward (b + i + 1) es q -> forward p (Read (b, i) r :: es) q
| fw_lost p b e es q : p <= b < e -> forward e es q -> forward p (Lost b e :: es) q.

(** Until the recovery function returns false. *)
Fixpoint until (recovery : Z * Z -> bool) (es : list record_event) : list record_event :=
  match es with
  | [] => []
  | Read p r :: es => Read p r :: until recovery es
  | Lost b e :: es => Lost b e :: if recovery (b, e) then until recovery es else []
  end.

Definition reads (es : list record_event) : list record_event := filter (fun e => match e with Read _ _ => true | Lost _ _ => false end) es.

(** A decoder of transposed chunks which accepts only what can be read as records (C47 proves this of the modelled one). *)
Definition sound_transposed (transpose_decode : list Z -> Z -> Z -> option (list Z * list Z)) : Prop :=
  forall src num_records size limits values, transpose_decode src num_records size = Some (limits, values) ->
  exists rs, limits = ends 0 rs /\ values = concat rs /\ zlen rs = num_records /\ total rs = size.
