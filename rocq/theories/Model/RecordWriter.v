(** Model of riegeli/records/record_writer.{h,cc} with the serial worker (parallelism 0).

    The destination is append-only and does not fail; [w_dest] is everything written to it, including
    what was there before.  [None] is a loop out of fuel in the chunk writer; the theorems exclude it.
    The state of RecordWriterBase and of its worker (both fail together) is one flag [w_ok]. *)
From Verif Require Import Base.Bytes Model.Endian Model.Block Model.Chunk Model.ChunkWriter Model.SimpleChunk.

(** record_writer.h:494-511 [Options]; [o_metadata] is [serialized_metadata_] (or the serialized [metadata_]). *)
Record options := MkOptions {
  o_transpose : bool;
  o_compression : Z;
  o_chunk_size : option Z;
  o_metadata : option (list Z);
  o_initial_padding : Z;
  o_final_padding : Z
}.
(** record_writer.h:283-289 *)
Definition effective_chunk_size (o : options) : Z :=
  match o_chunk_size o with
  | None => if o_compression o =? kNone then 4 * 2 ^ 10 else 2 ^ 20
  | Some n => n
  end.

(** record_writer.h:646-660 *)
Inductive last_record := LastRecordIsInvalid | LastRecordIsValid | LastRecordIsValidAt (pos : Z * Z).

(** The chunk encoder: a SimpleEncoder (Model/SimpleChunk.v), or a TransposeEncoder, of which only
    the records added and [ok()] are kept. *)
Inductive chunk_encoder := CSimple (e : encoder) | CTransposed (rs : list (list Z)) (ok : bool).
Definition ce_num_records (e : chunk_encoder) : Z :=
  match e with CSimple e => e_num e | CTransposed rs _ => zlen rs end.
(** chunk_encoder.h:110-114, simple_encoder.cc:55-61: [Clear] *)
Definition ce_clear (e : chunk_encoder) : chunk_encoder :=
  match e with CSimple _ => CSimple NewEncoder | CTransposed _ _ => CTransposed [] true end.
(** chunk_encoder.cc:29-32: [Done]; the encoder is closed, hence not [ok()]. *)
Definition ce_close (e : chunk_encoder) : chunk_encoder :=
  match e with CSimple _ => CSimple (MkEncoder 0 0 [] [] false) | CTransposed _ _ => CTransposed [] false end.
(** simple_encoder.cc:112-133; transpose_encoder.cc:265-283 (the checks). *)
Definition ce_AddRecord (record : list Z) (e : chunk_encoder) : bool * chunk_encoder :=
  match e with
  | CSimple e => let '(b, e) := AddRecord record e in (b, CSimple e)
  | CTransposed rs ok =>
      if negb ok then (false, e)
      else if zlen rs =? kMaxNumRecords then (false, CTransposed rs false)
      else if (2 ^ 64 - 1) - zlen (concat rs) <? zlen record then (false, CTransposed rs false)
      else (true, CTransposed (rs ++ [record]) true)
  end.

Record writer := MkWriter {
  w_options : options;
  w_dest : list Z;
  w_pos : Z;               (* chunk_writer_->pos() *)
  w_encoder : chunk_encoder;
  w_desired : Z;
  w_so_far : Z;
  w_last : last_record;
  w_ok : bool
}.
Definition set_dest d p w := MkWriter (w_options w) d p (w_encoder w) (w_desired w) (w_so_far w) (w_last w) (w_ok w).
Definition set_encoder e w := MkWriter (w_options w) (w_dest w) (w_pos w) e (w_desired w) (w_so_far w) (w_last w) (w_ok w).
Definition set_so_far n w := MkWriter (w_options w) (w_dest w) (w_pos w) (w_encoder w) (w_desired w) n (w_last w) (w_ok w).
Definition set_last l w := MkWriter (w_options w) (w_dest w) (w_pos w) (w_encoder w) (w_desired w) (w_so_far w) l (w_ok w).
Definition w_fail w := MkWriter (w_options w) (w_dest w) (w_pos w) (w_encoder w) (w_desired w) (w_so_far w) (w_last w) false.

(** [if (ABSL_PREDICT_FALSE(!m)) return Fail(...);] and go on with [f]. *)
Definition andthen (m : option (bool * writer)) (f : writer -> option (bool * writer)) : option (bool * writer) :=
  match m with
  | None => None
  | Some (false, w) => Some (false, w_fail w)
  | Some (true, w) => f w
  end.

Section RecordWriter.
  Variable hash : list Z -> Z.
  Variable compress : Z -> list Z -> list Z.
  (** transpose_encoder.cc [TransposeEncoder::EncodeAndClose], here a parameter: chunk data. *)
  Variable transpose_encode : options -> list (list Z) -> list Z.

  (** simple_encoder.cc:170-192; transpose_encoder.cc: data, chunk type, number of records, decoded size. *)
  Definition ce_EncodeAndClose (o : options) (e : chunk_encoder) : option (list Z * Z * Z * Z) :=
    match e with
    | CSimple e => EncodeAndClose compress (o_compression o) e
    | CTransposed rs ok =>
        if ok then Some (transpose_encode o rs, kTransposed, zlen rs, zlen (concat rs)) else None
    end.

  (** chunk_writer_->WriteChunk(chunk) *)
  Definition put_chunk (c : chunk) (w : writer) : option (bool * writer) :=
    match WriteChunk hash c (w_pos w) with
    | None => None
    | Some (out, pos) => Some (true, set_dest (w_dest w ++ out) pos w)
    end.

  (** record_writer.cc:318-320, 407-415 [WriteSignature] *)
  Definition WriteSignature (w : writer) : option (bool * writer) :=
    if negb (w_ok w) then Some (false, w)
    else put_chunk (MkChunk (ChunkHeader hash [] kFileSignature 0 0) []) w.
  (** record_writer.cc:322-341, 417-429 [WriteMetadata] *)
  Definition WriteMetadata (w : writer) : option (bool * writer) :=
    if negb (w_ok w) then Some (false, w)
    else
      match o_metadata (w_options w) with
      | None => Some (true, w)
      | Some metadata =>
          let data := transpose_encode (w_options w) [metadata] in
          put_chunk (MkChunk (ChunkHeader hash data kFileMetadata 0 (zlen metadata)) data) w
      end.
  (** record_writer.cc:363-380, 431-439 [CloseChunk] *)
  Definition CloseChunk (w : writer) : option (bool * writer) :=
    if negb (w_ok w) then Some (false, w)
    else
      match ce_EncodeAndClose (w_options w) (w_encoder w) with
      | None => Some (false, w_fail w)
      | Some (data, chunk_type, num_records, decoded_data_size) =>
          put_chunk (MkChunk (ChunkHeader hash data chunk_type num_records decoded_data_size) data)
            (set_encoder (ce_close (w_encoder w)) w)
      end.
  (** record_writer.cc:389 [OpenChunk] *)
  Definition OpenChunk (w : writer) : writer := set_encoder (ce_clear (w_encoder w)) w.
  (** record_writer.cc:441-447 [WritePadding] *)
  Definition PutPadding (padding : Z) (w : writer) : option (bool * writer) :=
    if negb (w_ok w) then Some (false, w)
    else
      match WritePadding hash padding (w_pos w) with
      | None => None
      | Some (out, pos) => Some (true, set_dest (w_dest w ++ out) pos w)
      end.

  (** record_writer.cc:264-271 [Worker::Initialize], 873-889 [RecordWriterBase::Initialize], with the chunk
      writer created over a destination which already holds [dest] (chunk_writer.cc:65-75). *)
  Definition NewRecordWriter (o : options) (dest : list Z) : option (bool * writer) :=
    let '(out, pos) := InitializeWriter (zlen dest) in
    let w := MkWriter o (dest ++ out) pos
               (if o_transpose o then CTransposed [] true else CSimple NewEncoder)
               (Z.min (effective_chunk_size o) (kMaxNumRecords * 8)) 0 LastRecordIsInvalid true in
    if pos =? 0 then andthen (WriteSignature w) (fun w => andthen (WriteMetadata w) (fun w => Some (true, w)))
    else PutPadding (o_initial_padding o) w.

  (** record_writer.cc:459-465, 467-469, 1068-1087: [LastPos()] ([None] if there is no last record), [Pos()]. *)
  Definition Worker_LastPos (w : writer) : Z * Z := (w_pos w, ce_num_records (w_encoder w) - 1).
  Definition LastPos (w : writer) : option (Z * Z) :=
    match w_last w with
    | LastRecordIsInvalid => None
    | LastRecordIsValid => Some (Worker_LastPos w)
    | LastRecordIsValidAt p => Some p
    end.
  Definition Pos (w : writer) : Z * Z := (w_pos w, ce_num_records (w_encoder w)).

  (** record_writer.cc:342-350 [Worker::AddRecord] *)
  Definition Worker_AddRecord (record : list Z) (w : writer) : option (bool * writer) :=
    if negb (w_ok w) then Some (false, w)
    else
      let '(b, e) := ce_AddRecord record (w_encoder w) in
      if b then Some (true, set_encoder e w) else Some (false, w_fail (set_encoder e w)).

  (** record_writer.cc:930-1005 [WriteRecord], [WriteRecordImpl] *)
  Definition WriteRecord (record : list Z) (w : writer) : option (bool * writer) :=
    if negb (w_ok w) then Some (false, w)
    else
      let w := set_last LastRecordIsInvalid w in
      let added_size := u64 (zlen record + 8) in
      andthen
        (if (w_desired w <? u64 (w_so_far w + added_size)) && (0 <? w_so_far w) then
           andthen (CloseChunk w) (fun w => Some (true, set_so_far 0 (OpenChunk w)))
         else Some (true, w))
        (fun w =>
           let w := set_so_far (u64 (w_so_far w + added_size)) w in
           andthen (Worker_AddRecord record w)
             (fun w =>
                if w_desired w <? u64 (w_so_far w + 8) then
                  let w := set_last (LastRecordIsValidAt (Worker_LastPos w)) w in
                  andthen (CloseChunk w) (fun w => Some (true, set_so_far 0 (OpenChunk w)))
                else Some (true, set_last LastRecordIsValid w))).

  (** record_writer.cc:1011-1018 and 899-907: closing the chunk which is open, if any. *)
  Definition close_open_chunk (w : writer) : option (bool * writer) :=
    if 0 <? w_so_far w then
      let w := match w_last w with
               | LastRecordIsValid => set_last (LastRecordIsValidAt (Worker_LastPos w)) w
               | _ => w
               end in
      CloseChunk w
    else Some (true, w).
  (** record_writer.cc:1007-1030 [Flush]; flushing the destination itself has no effect on its contents.
      [FutureFlush] (1032-1066) does the same when the worker is serial. *)
  Definition Flush (w : writer) : option (bool * writer) :=
    if negb (w_ok w) then Some (false, w)
    else
      andthen (close_open_chunk w)
        (fun w => andthen (PutPadding (o_final_padding (w_options w)) w)
           (fun w => Some (true, if 0 <? w_so_far w then set_so_far 0 (OpenChunk w) else w))).
  (** record_writer.cc:891-912 [Done] *)
  Definition CloseWriter (w : writer) : option (bool * writer) :=
    match close_open_chunk w with
    | None => None
    | Some (b1, w) =>
        let w := set_so_far 0 (if b1 then w else w_fail w) in
        match PutPadding (o_final_padding (w_options w)) w with
        | None => None
        | Some (b2, w) => Some (b1 && b2 && w_ok w, if b2 then w else w_fail w)
        end
    end.

  (** ** Users *)
  Inductive call := CallWrite (record : list Z) | CallFlush.
  Definition RunCall (c : call) (w : writer) : option (bool * writer) :=
    match c with CallWrite r => WriteRecord r w | CallFlush => Flush w end.
  (** What is observed after each call: its result, LastPos(), Pos(). *)
  Definition observation : Type := bool * option (Z * Z) * (Z * Z).
  Fixpoint RunCalls (cs : list call) (w : writer) : option (list observation * writer) :=
    match cs with
    | [] => Some ([], w)
    | c :: cs' =>
        match RunCall c w with
        | None => None
        | Some (b, w) =>
            match RunCalls cs' w with
            | None => None
            | Some (os, w') => Some ((b, LastPos w, Pos w) :: os, w')
            end
        end
    end.
  (** Opens a writer on a file, makes some calls and closes it: observations, the result of Close(), the file. *)
  Definition Session (o : options) (cs : list call) (dest : list Z) : option (list observation * bool * list Z) :=
    match NewRecordWriter o dest with
    | None => None
    | Some (_, w) =>
        match RunCalls cs w with
        | None => None
        | Some (os, w) =>
            match CloseWriter w with
            | None => None
            | Some (b, w) => Some (os, b, w_dest w)
            end
        end
    end.
  (** Several writers one after another, each appending to the file left by the previous one. *)
  Fixpoint Sessions (ss : list (options * list call)) (dest : list Z) : option (list (list observation * bool) * list Z) :=
    match ss with
    | [] => Some ([], dest)
    | (o, cs) :: ss' =>
        match Session o cs dest with
        | None => None
        | Some (os, b, dest) =>
            match Sessions ss' dest with
            | None => None
            | Some (rs, dest) => Some ((os, b) :: rs, dest)
            end
        end
    end.
End RecordWriter.
